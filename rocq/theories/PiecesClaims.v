(** Specification vocabulary for merging one set in several pieces. *)
From Verif Require Import Base Types MergeModel SpecBase MergeSpec MergeClaims.

(** Two postings, of transactions that may end up in different pieces, where the
    first would be a new posting: the second must not be taken for it. *)
Definition mistaken (j : journal) (tp tp' : transaction_postings) : Prop :=
  ∃ q p, q ∈ tp_posts tp ∧ p ∈ tp_posts tp' ∧ tp_date tp = tp_date tp' ∧
    matches_nothing j (tp_date tp) q ∧ (∀ i, ¬ fp_match_at j p i) ∧ soft_match q p.
(** No posting of one transaction of the set would be taken for a new posting of
    another transaction of the set. *)
Definition told_apart (j : journal) (tps : list transaction_postings) : Prop :=
  ∀ a a' tp tp', tps !! a = Some tp → tps !! a' = Some tp' → a ≠ a' → ¬ mistaken j tp tp'.
(** Two transactions that differ at most in the order of their postings. *)
Definition same_postings (a b : transaction_postings) : Prop := tp_trn b = tp_trn a ∧ tp_posts b ≡ₚ tp_posts a.
(** Two lists of transactions that differ at most in order, and in the order of
    postings within transactions. *)
Definition same_up_to_order (l k : list transaction_postings) : Prop :=
  ∃ k', k ≡ₚ k' ∧ Forall2 same_postings l k'.

(** Specification vocabulary: transactions that say less than what was merged  and journals with older fingerprints (C151). *)
From Verif Require Import MergeClaims.
From Verif Require Import Base Types SpecBase EditClaims ResolveClaims.

(** The postings of the second transaction say nothing that those of the first do not. *)
Definition says_no_more (tp tp' : transaction_postings) : Prop := Forall2 has_all (tp_posts tp) (tp_posts tp').

(** The journal [J] has every transaction of [s]: each posting has a fingerprint in common
    with one posting of [J] and with no other, for postings of one transaction these are
    in one transaction of [J], and for different postings they are different.  Both may have
    further fingerprints of their own. *)
Definition known_in (J s : list transaction_postings) : Prop :=
  (∀ tp, tp ∈ s → ∃ a t, J !! a = Some t ∧ ∀ p, p ∈ tp_posts tp → ∃ b q, tp_posts t !! b = Some q ∧ share_fp q p ∧
     ∀ a' t' b' q', J !! a' = Some t' → tp_posts t' !! b' = Some q' → share_fp q' p → a' = a ∧ b' = b) ∧
  (∀ u v p q x, all_posts s !! u = Some p → all_posts s !! v = Some q → x ∈ all_posts J → share_fp x p → share_fp x q → u = v).
(** [J] is [s] with some of the fingerprints of each posting, at least one, and anything
    else changed. *)
Definition fewer_fingerprints (s J : list transaction_postings) : Prop :=
  Forall2 (λ tp t, Forall2 (λ p q, (∃ f, has_fp q f) ∧ ∀ f, has_fp q f → has_fp p f) (tp_posts tp) (tp_posts t)) s J.

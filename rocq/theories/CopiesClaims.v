(** Specification vocabulary: two copies of one journal that were given fingerprints
    separately (C153). *)
From Verif Require Import MergeClaims.
From Verif Require Import Base Types SpecBase DrawnClaims.

(** A journal without fingerprints and candidate tags, all its transactions with postings. *)
Record unmarked (J : list transaction_postings) : Prop := {
  um_tags : ∀ p t, p ∈ all_posts J → has_tag p t → ¬ fp_tag t ∧ ¬ candidate_tag t;
  um_posts : ∀ tp, tp ∈ J → tp_posts tp ≠ [];
}.
(** No two postings on one day soft match. *)
Definition told_apart (J : list transaction_postings) : Prop :=
  ∀ a a' b b' tp tp' p q, J !! a = Some tp → J !! a' = Some tp' → tp_posts tp !! b = Some p → tp_posts tp' !! b' = Some q →
    tp_date tp = tp_date tp' → soft_match p q → a = a' ∧ b = b'.
(** The ids of the two runs are all different. *)
Definition separate_ids (gen gen' : nat → str) : Prop :=
  (∀ i k, gen i = gen k → i = k) ∧ (∀ i k, gen' i = gen' k → i = k) ∧ ∀ i k, gen i ≠ gen' k.
(** A posting with two fingerprints added, one from an id of each run, and the same in all
    else; the transactions with such postings. *)
Definition both_ids (gen gen' : nat → str) (p p' : posting_internal) : Prop :=
  pi_raw p' = pi_raw p ∧ lines (pi_comment p') = lines (pi_comment p) ∧ value_tags (pi_comment p') = value_tags (pi_comment p) ∧
  ∃ i k, ∀ t, has_tag p' t ↔ has_tag p t ∨ t = id_fingerprint (gen i) ∨ t = id_fingerprint (gen' k).
Definition all_both_ids (gen gen' : nat → str) (J out : list transaction_postings) : Prop :=
  Forall2 (λ tp tp', tp_trn tp' = tp_trn tp ∧ Forall2 (both_ids gen gen') (tp_posts tp) (tp_posts tp')) J out.

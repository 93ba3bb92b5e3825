(** Specification vocabulary for merging in several runs (C107). *)
From Verif Require Import Base Types MergeModel SpecBase MergeClaims ResolveClaims.

(** What each of a sequence of calls of [merge] answers, whether it succeeds or not. *)
Fixpoint outcomes (m : merger) (h : list (hash_order * list transaction_postings)) : list (result (list transaction_postings)) :=
  match h with
  | [] => []
  | (ho, s) :: h => (merge ho m s).2 :: outcomes (merge ho m s).1 h
  end.
(** Both calls fail, or both succeed and hand back the same transactions, except
    for candidate tags. *)
Definition outcome_alike (r r' : result (list transaction_postings)) : Prop :=
  (∃ un un', r = Ok un ∧ r' = Ok un' ∧ Forall2 equal_but_candidates un un') ∨
  (∃ e e', r = Err e ∧ r' = Err e').
(** Transactions of these sets with a common fingerprint have the same date. *)
Definition steady (sets : list (list transaction_postings)) : Prop :=
  ∀ s s' tp tp' p q, s ∈ sets → s' ∈ sets → tp ∈ s → tp' ∈ s' → p ∈ tp_posts tp → q ∈ tp_posts tp' →
    share_fp p q → tp_date tp = tp_date tp'.

(** Specification vocabulary: which ids generate-fingerprints draws (C152). *)
From Verif Require Import MergeClaims.
From Verif Require Import Base Types SpecBase RetagClaims.
Local Open Scope nat_scope.

(** The fingerprint made from an id. *)
Definition id_fingerprint (id : str) : str := s2l "fp-uuidb64-" ++ id.
(** Ids number [n] up to [n'], that one excluded: the fingerprints made from them; they are
    different; the transactions have none of them. *)
Definition drawn (gen : nat → str) (n n' : nat) (t : str) : Prop := ∃ i, n ≤ i < n' ∧ t = id_fingerprint (gen i).
Definition different_ids (gen : nat → str) (n n' : nat) : Prop := ∀ i k, n ≤ i < n' → n ≤ k < n' → gen i = gen k → i = k.
Definition free_of (gen : nat → str) (n n' : nat) (tps : list transaction_postings) : Prop :=
  ∀ p t, p ∈ all_posts tps → has_tag p t → ¬ drawn gen n n' t.
(** Each of these fingerprints becomes the one made from the other id of the same number, and
    other tags stay. *)
Definition exchanges (gen gen' : nat → str) (n n' : nat) (f : str → str) : Prop :=
  (∀ i, n ≤ i < n' → f (id_fingerprint (gen i)) = id_fingerprint (gen' i)) ∧ ∀ t, ¬ drawn gen n n' t → f t = t.
(** Both calls fail, or both succeed and hand back the same transactions, except for the
    tags exchanged and candidate tags. *)
Definition alike_but (f : str → str) (r r' : result (list transaction_postings)) : Prop :=
  (∃ un un', r = Ok un ∧ r' = Ok un' ∧ Forall2 (λ u u', equal_but_candidates (retag f u) u') un un') ∨
  (∃ e e', r = Err e ∧ r' = Err e').

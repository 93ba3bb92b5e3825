(** Specification vocabulary for C89: rows renumbered by a cut. *)
From Verif Require Import MergeClaims.
From Verif Require Import Base Types SpecBase NwCsvModel ImportClaims.
Local Open Scope nat_scope.

(** Row [k], behind a cut before row [c], and all rows between it and the cut, have
    the date of the row before the cut. *)
Definition day_cut (ds : list date) (c k : nat) : Prop :=
  0 < c ≤ k ∧ ∀ i, c ≤ S i → i ≤ k → ds !! i = ds !! k.

(** Specification vocabulary for numbers that do not fit (C126). *)
From stdpp Require Import list.
From Verif Require Import MergeClaims.
From Verif Require Import Base Types FingerprintModel NwCsvModel PaypalModel ImportClaims.

(** A text in which an amount of 2^63 pence or more is written. *)
Definition too_large (s : str) : Prop :=
  ∃ pre neg P F post, s = pre ++ POUND :: sign_text neg ++ P ++ DOT :: F ++ post ∧ digits P ∧ digits F ∧
    (2 ^ 63 ≤ number P * 100 + number F)%N.

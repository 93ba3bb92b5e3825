(** Specification vocabulary for generated namespaces (C42). *)
From Verif Require Import Base Types FingerprintModel.
Local Open Scope N_scope.

(** What is hashed for the generated namespace of an account. *)
Definition namespace_message (account : str) : list N := with_str account (with_str (s2l "Nationwide") []).

(** What the functions of Rust's standard library and of the crates sha1 and base64
    that the model has of its own are documented to do. *)
From Verif Require Import Base.
Local Open Scope N_scope.

(** Order of byte strings. *)
Definition bytes_le (a b : list N) : Prop :=
  (∃ c, b = a ++ c) ∨ ∃ p x y a' b', a = p ++ x :: a' ∧ b = p ++ y :: b' ∧ x < y.

(** Bits of a number, most significant first. *)
Fixpoint bits (k : nat) (n : N) : list bool :=
  match k with O => [] | S k => N.testbit n (N.of_nat k) :: bits k n end.
(** The alphabet of base64. *)
Definition b64_alphabet : str := s2l "ABCDEFGHIJKLMNOPQRSTUVWXYZabcdefghijklmnopqrstuvwxyz0123456789+/".

(** FIPS 180-4: words are below 2^32; [rotl k x] has bit [i + k] (modulo 32) equal to
    bit [i] of [x]. *)
Definition rotl_spec (k x y : N) : Prop :=
  y < 2 ^ 32 ∧ ∀ i, i < 32 → N.testbit y ((i + k) mod 32) = N.testbit x i.

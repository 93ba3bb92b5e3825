(** Specification vocabulary for fingerprints of values of any types (C128). *)
From Verif Require Import Base Types Sha1 FingerprintModel FingerprintClaims FpTypesModel.
Local Open Scope N_scope.

(** Values that the types of Rust can hold. *)
Fixpoint val_ok (t : fp_type) : fp_val t → Prop :=
  match t return fp_val t → Prop with
  | TBytes => λ l, ∀ b, b ∈ l → b < 256
  | TI8 => λ z, (-128 ≤ z < 128)%Z
  | TI16 => λ z, (-32768 ≤ z < 32768)%Z
  | TI32 => i32_ok
  | TI64 => i64_ok
  | TU8 => λ n, n < 256
  | TU16 => λ n, n < 65536
  | TU32 => λ n, n < 2 ^ 32
  | TU64 | TUsize => λ n, n < 2 ^ 64
  | TAmount => amount_ok
  | TOption t => λ o, match o with Some x => val_ok t x | None => True end
  | TStr => str_ok
  | TDate => date_ok
  | TTime => time_ok
  end.
Fixpoint vals_ok (ts : list fp_type) : fp_vals ts → Prop :=
  match ts return fp_vals ts → Prop with
  | [] => λ _, True
  | t :: ts => λ xs, val_ok t xs.1 ∧ vals_ok ts xs.2
  end.

(** Bytes of unknown number, which are written without their number. *)
Fixpoint raw (t : fp_type) : Prop := match t with TBytes => True | TOption t => raw t | _ => False end.
(** Only the last value may be raw. *)
Definition raw_only_last (ts : list fp_type) : Prop := ∀ us t vs, ts = us ++ t :: vs → raw t → vs = [].

(** What is hashed for a list of values. *)
Definition chain_message (ts : list fp_type) (xs : fp_vals ts) : list N :=
  fb_acc (with_all ts xs (Builder [] [] 0 [])).

(** The number of bytes of a number, and the number that they show: negative numbers
    in two's complement. *)
Definition width (t : fp_type) : option N :=
  match t with
  | TI8 | TU8 => Some 1
  | TI16 | TU16 => Some 2
  | TI32 | TU32 => Some 4
  | TI64 | TU64 | TUsize => Some 8
  | _ => None
  end.
Definition as_number (t : fp_type) : fp_val t → Z :=
  match t return fp_val t → Z with
  | TI8 | TI16 | TI32 | TI64 => λ z, z
  | TU8 | TU16 | TU32 | TU64 | TUsize => Z.of_N
  | _ => λ _, 0%Z
  end.

(** Model of the implementations of [Fingerprintable] in src/fingerprint.rs for all
    types, and of chains of [with]. *)
From Verif Require Import Base Types Sha1 FingerprintModel.
Local Open Scope N_scope.

(** src/fingerprint.rs:159-164: [as u8] is two's complement. *)
Definition with_i8 (z : Z) (acc : accumulator) : accumulator := with_bytes [Z.to_N (z mod 256)] acc.
(** src/fingerprint.rs:166-172. *)
Definition with_i16 (z : Z) (acc : accumulator) : accumulator :=
  with_bytes (be_bytes 2 (Z.to_N (z mod 65536))) acc.
(** src/fingerprint.rs:197-203. *)
Definition with_u16 (n : N) (acc : accumulator) : accumulator := with_bytes (be_bytes 2 n) acc.

(** The types that have an implementation, src/fingerprint.rs:152-277. *)
Inductive fp_type :=
  | TBytes | TI8 | TI16 | TI32 | TI64 | TU8 | TU16 | TU32 | TU64 | TUsize
  | TAmount | TOption (t : fp_type) | TStr | TDate | TTime.
(** Values of these types (for numbers without their bounds). *)
Fixpoint fp_val (t : fp_type) : Type :=
  match t with
  | TBytes => list N
  | TI8 | TI16 | TI32 | TI64 => Z
  | TU8 | TU16 | TU32 | TU64 | TUsize => N
  | TAmount => amount
  | TOption t => option (fp_val t)
  | TStr => str
  | TDate => date
  | TTime => time
  end.
(** src/fingerprint.rs:144-149, 152-277: [with] for a value of any of the types. *)
Fixpoint fp_with (t : fp_type) : fp_val t → accumulator → accumulator :=
  match t return fp_val t → accumulator → accumulator with
  | TBytes => with_bytes
  | TI8 => with_i8 | TI16 => with_i16 | TI32 => with_i32 | TI64 => with_i64
  | TU8 => with_u8 | TU16 => with_u16 | TU32 => with_u32 | TU64 => with_u64
  | TUsize => with_usize
  | TAmount => with_amount
  | TOption t => with_option (fp_with t)
  | TStr => with_str
  | TDate => with_date
  | TTime => with_time
  end.
(** One value for each type of a list. *)
Fixpoint fp_vals (ts : list fp_type) : Type :=
  match ts with [] => unit | t :: ts => (fp_val t * fp_vals ts)%type end.
(** src/fingerprint.rs:103-113: [b.with(x1).with(x2)...]. *)
Fixpoint with_all (ts : list fp_type) : fp_vals ts → builder → builder :=
  match ts return fp_vals ts → builder → builder with
  | [] => λ _ b, b
  | t :: ts => λ xs b, with_all ts xs.2 (builder_with (fp_with t xs.1) b)
  end.

(** Specification vocabulary for C125: which imported postings have a fingerprint
    in common. *)
From Verif Require Import MergeClaims.
From Verif Require Import Base Types SpecBase CommentModel FingerprintModel NwCsvModel PaypalModel
  FingerprintClaims ImportClaims.
Local Open Scope nat_scope.

(** What a row of a Nationwide statement adds to its account. *)
Definition adds (r : nw_record) (a : amount) : Prop :=
  (paid_in r = Some a ∧ paid_out r = None) ∨
  ∃ neg e n c, paid_in r = None ∧ paid_out r = Some (Amount (Dec neg e n) c) ∧ a = Amount (Dec (negb neg) e n) c.
(** Two rows of six columns that differ in the description only, or in the column
    the amount is written in. *)
Definition same_but_description (r r' : nw_record) : Prop :=
  ∃ x y a, r = Six x ∧ r' = Six y ∧ r6_date x = r6_date y ∧ r6_type x = r6_type y ∧ r6_balance x = r6_balance y ∧ adds r a ∧ adds r' a.
(** The rows [r] and [r'] are one for fingerprints; [legacy] if both imports write
    legacy fingerprints too. *)
Definition same_entry (legacy : bool) (r r' : nw_record) : Prop :=
  r = r' ∨ legacy = true ∧ same_but_description r r'.
Definition row_messages_collide (r : nw_record) (i : nat) (r' : nw_record) (i' : nat) : Prop :=
  ∃ m m', row_message r i m ∧ row_message r' i' m' ∧ sha1_collision m m'.

(** The posting for side [s] of the [i]th row of a PayPal transaction. *)
Definition place (i : nat) (s : side) : nat := match s with Self => 2 * i | Peer => 2 * i + 1 end.

(** Specification vocabulary for fingerprints (C38-C42). *)
From Verif Require Import Base Types Sha1 FingerprintModel NwCsvModel PaypalModel CommentClaims.
Local Open Scope N_scope.

(** ** Values as Rust can hold them *)
(** Unicode scalar values; the byte length is a [usize]. *)
Definition str_ok (s : str) : Prop := (∀ c, c ∈ s → c < 1114112) ∧ utf8_len s < 2 ^ 64.
Definition date_ok (d : date) : Prop :=
  let '(y, m, d) := d in (-262144 ≤ y ≤ 262143)%Z ∧ 1 ≤ m ≤ 12 ∧ 1 ≤ d ≤ 31.
Definition time_ok (t : time) : Prop :=
  let '(h, m, s, n) := t in h < 24 ∧ m < 60 ∧ s < 60 ∧ n < 2000000000.
Definition dec_ok (d : decimal) : Prop := d_scale d ≤ 28 ∧ d_mant d < 2 ^ 96.
Definition amount_ok (a : amount) : Prop :=
  dec_ok (a_quantity a) ∧ str_ok (cm_name (a_commodity a)).
Definition opt_ok {A} (P : A → Prop) (o : option A) : Prop := ∀ a, o = Some a → P a.
Definition i32_ok (z : Z) : Prop := (- 2 ^ 31 ≤ z < 2 ^ 31)%Z.
Definition i64_ok (z : Z) : Prop := (- 2 ^ 63 ≤ z < 2 ^ 63)%Z.

Definition five_ok (r : record_five) : Prop :=
  date_ok (r5_date r) ∧ str_ok (r5_transactions r) ∧ str_ok (r5_location r) ∧
  opt_ok amount_ok (r5_paid_out r) ∧ opt_ok amount_ok (r5_paid_in r).
Definition six_ok (r : record_six) : Prop :=
  date_ok (r6_date r) ∧ str_ok (r6_type r) ∧ str_ok (r6_description r) ∧
  opt_ok amount_ok (r6_paid_out r) ∧ opt_ok amount_ok (r6_paid_in r) ∧ amount_ok (r6_balance r).
Definition pp_row_ok (r : pp_row) : Prop :=
  date_ok (pr_date r) ∧ time_ok (pr_time r) ∧ str_ok (pr_time_zone r) ∧ opt_ok str_ok (pr_name r) ∧
  str_ok (pr_type r) ∧ str_ok (pr_currency r) ∧ dec_ok (pr_amount r) ∧ dec_ok (pr_balance r).

(** ** Hashed messages *)
(** Two different messages with the same SHA-1 digest. *)
Definition sha1_collision (a b : list N) : Prop := a ≠ b ∧ sha1 a = sha1 b.

(** The two postings made from one record. *)
Inductive side := Self | Peer.
Definition pick {A} (s : side) (p : A * A) : A := match s with Self => p.1 | Peer => p.2 end.
Definition side_name (s : side) : str := match s with Self => s2l "self" | Peer => s2l "peer" end.

(** The bytes that are hashed for the fingerprint of one posting. *)
Definition five_message (r : record_five) (counter : Z) (s : side) : list N :=
  with_str (side_name s)
  (with_option with_amount (r5_paid_in r)
  (with_option with_amount (r5_paid_out r)
  (with_str (r5_location r)
  (with_str (r5_transactions r)
  (with_i32 counter
  (with_date (r5_date r) [])))))).
Definition six_message (r : record_six) (counter : Z) (s : side) : list N :=
  with_str (side_name s)
  (with_amount (r6_balance r)
  (with_option with_amount (r6_paid_in r)
  (with_option with_amount (r6_paid_out r)
  (with_str (r6_description r)
  (with_i32 counter
  (with_date (r6_date r)
  (with_str (r6_type r) []))))))).
Definition legacy_message (r : record_six) (counter : Z) (h : account_amount) : list N :=
  with_amount (aa_amount h)
  (with_str (aa_account h)
  (with_i32 counter
  (with_amount (r6_balance r)
  (with_str []
  (with_date (r6_date r)
  (with_str (r6_type r) [])))))).
Definition pp_message (r : pp_row) (index : nat) (s : side) : list N :=
  with_str (side_name s)
  (with_usize (N.of_nat index)
  (with_amount (Amount (pr_balance r) (Commodity (pr_currency r) PosLeft))
  (with_amount (Amount (pr_amount r) (Commodity (pr_currency r) PosLeft))
  (with_str (pr_type r)
  (with_option with_str (pr_name r)
  (with_str (pr_time_zone r)
  (with_time (pr_time r)
  (with_date (pr_date r) [])))))))).

(** ** Text of the parts of a tag *)
Definition part_chars : str :=
  s2l "abcdefghijklmnopqrstuvwxyzABCDEFGHIJKLMNOPQRSTUVWXYZ0123456789_+/".
Definition fp_part (s : str) : Prop := ∀ c, c ∈ s → c ∈ part_chars.
(** A fingerprint whose parts the builder accepts. *)
Definition fp_ok (f : fingerprint) : Prop :=
  fp_part (fp_algorithm f) ∧ fp_part (fp_namespace f) ∧ fp_part (fp_value f).

(** What a tag needs to be written, found and recognised. *)
Definition good_fp_tag (t : str) : Prop :=
  is_fingerprint t = true ∧ is_candidate t = false ∧ tag_name t ∧ newline ∉ t ∧ (∀ c, c ∈ t → is_ws c = false).

(** Rows that agree in everything except status and receipt id. *)
Definition pp_same_hashed (r r' : pp_row) : Prop :=
  pr_date r = pr_date r' ∧ pr_time r = pr_time r' ∧ pr_time_zone r = pr_time_zone r' ∧
  pr_name r = pr_name r' ∧ pr_type r = pr_type r' ∧ pr_currency r = pr_currency r' ∧
  pr_amount r = pr_amount r' ∧ pr_balance r = pr_balance r'.

(** Model of src/importers/nationwide_csv.rs with the arithmetic as it is done on
    [i64] (amounts) and [i32] (the number of a row within its day).

    A product or sum that does not fit panics in a build with overflow checks
    (cargo's default for debug builds), [checks = true], and wraps around in a build
    without (release builds), [checks = false].  Everything else is as in NwCsvModel.v. *)
From stdpp Require Import list.
From Verif Require Import Base Types CommentModel FingerprintModel NwCsvModel.
Local Open Scope Z_scope.

(** The result of an operation on signed numbers of some width, [half] of which are negative. *)
Definition wrap_at (half : Z) (z : Z) : Z := (z + half) mod (2 * half) - half.
Definition signed_of (half : Z) (checks : bool) (z : Z) : result Z :=
  if (- half <=? z) && (z <? half) then Ok z else if checks then Panic else Ok (wrap_at half z).
Definition i64_of (checks : bool) (z : Z) : result Z := signed_of 9223372036854775808 checks z.
Definition i32_sum (checks : bool) (z : Z) : result Z := signed_of 2147483648 checks z.

(** [Decimal::new] (external): the sign and the absolute value of the number. *)
Definition decimal_new (num : Z) (scale : N) : decimal := Dec (num <? 0) scale (Z.abs_N num).
(** [Decimal::set_sign_negative] (external). *)
Definition set_sign_negative (neg : bool) (d : decimal) : decimal := Dec neg (d_scale d) (d_mant d).

(** src/importers/nationwide_csv.rs:479-498. *)
Definition gbp_value_i64 (checks : bool) (s : str) : result amount :=
  match gbp_rx s with
  | None => Err EBadAmount
  | Some (sign, pounds, pence) =>
      let! pounds := parse_i64 pounds in
      let! pence := parse_i64 pence in
      let! product := i64_of checks (Z.of_N pounds * 100) in
      let! sum := i64_of checks (product + Z.of_N pence) in
      Ok (Amount (set_sign_negative (str_eqb sign [MINUS]) (decimal_new sum 2)) GBP)
  end.

(** src/importers/nationwide_csv.rs:338-348, 367-378; see [de_five] and [de_six]. *)
Definition de_opt_gbp_i64 (checks : bool) (s : str) : result (option amount) :=
  match s with [] => Ok None | _ => rmap Some (gbp_value_i64 checks s) end.
Definition de_five_i64 (checks : bool) (pd : date_parser) (r : csv_record) : result record_five :=
  match r with
  | d :: t :: l :: po :: pi :: _ =>
      let! d := de_date pd d in
      let! po := de_opt_gbp_i64 checks po in
      let! pi := de_opt_gbp_i64 checks pi in
      Ok (RecordFive d t l po pi)
  | _ => Err EBadRecord
  end.
Definition de_six_i64 (checks : bool) (pd : date_parser) (r : csv_record) : result record_six :=
  match r with
  | d :: ty :: de :: po :: pi :: b :: _ =>
      let! d := de_date pd d in
      let! po := de_opt_gbp_i64 checks po in
      let! pi := de_opt_gbp_i64 checks pi in
      let! b := gbp_value_i64 checks b in
      Ok (RecordSix d ty de po pi b)
  | _ => Err EBadRecord
  end.

(** src/importers/nationwide_csv.rs:230, 288. *)
Definition seq_value_i32 (checks : bool) (ns : str) (counter : Z) : result str :=
  let! n := i32_sum checks (counter + 1) in Ok (ns ++ s2l "-" ++ show_Z n).

(** src/importers/nationwide_csv.rs:194-253. *)
Definition five_form_postings_i64 (checks : bool) (ho : hash_order) (r : record_five) (ns account_name : str)
    (counter : Z) : result (posting * posting) :=
  let! self_amount := self_amount_of (r5_paid_in r) (r5_paid_out r) in
  let halves := self_and_peer_account_amount self_amount ASSETS_UNKNOWN in
  let! fp := five_fingerprint_v1 r ns counter in
  let common :=
    with_option_value_tag LOCATION_TAG
      (match r5_location r with [] => None | l => Some l end)
    (with_value_tag TRANSACTIONS_TAG (r5_transactions r)
    (with_value_tag BANK BANK_NAME
    (with_value_tag ACCOUNT account_name
    (with_tag UNKNOWN_ACCOUNT comment_new)))) in
  let! seq := seq_value_i32 checks ns counter in
  let self_comment := with_tag IMPORT_SELF (with_value_tag SEQ seq (with_tag (tag fp.1) common)) in
  let peer_comment := with_tag IMPORT_PEER (with_tag (tag fp.2) common) in
  Ok (nw_posting ho halves.1 None self_comment, nw_posting ho halves.2 None peer_comment).

(** src/importers/nationwide_csv.rs:263-316. *)
Definition six_form_postings_i64 (checks : bool) (ho : hash_order) (r : record_six) (ns account_name : str)
    (counter : Z) (include_legacy : bool) : result (posting * posting) :=
  let! self_amount := self_amount_of (r6_paid_in r) (r6_paid_out r) in
  let halves := self_and_peer_account_amount self_amount ASSETS_UNKNOWN in
  let common :=
    with_value_tag TRANSACTION_TYPE_TAG (r6_type r)
    (with_value_tag BANK BANK_NAME
    (with_value_tag ACCOUNT account_name
    (with_tag UNKNOWN_ACCOUNT comment_new))) in
  let! fp := six_fingerprint_v1 r ns counter in
  let! seq := seq_value_i32 checks ns counter in
  let self_comment := with_tag IMPORT_SELF (with_value_tag SEQ seq (with_tag (tag fp.1) common)) in
  let peer_comment := with_tag IMPORT_PEER (with_tag (tag fp.2) common) in
  let! (self_comment, peer_comment) :=
    if include_legacy then
      let! l := six_fingerprint_legacy r ns counter halves in
      Ok (with_tag (legacy_tag l.1) self_comment, with_tag (legacy_tag l.2) peer_comment)
    else Ok (self_comment, peer_comment) in
  Ok (nw_posting ho halves.1 (Some (BalAmount (r6_balance r))) self_comment,
      nw_posting ho halves.2 None peer_comment).
Definition rec_form_postings_i64 (checks : bool) (ho : hash_order) (r : nw_record) (ns account_name : str)
    (counter : Z) (include_legacy : bool) : result (posting * posting) :=
  match r with
  | Five r => five_form_postings_i64 checks ho r ns account_name counter
  | Six r => six_form_postings_i64 checks ho r ns account_name counter include_legacy
  end.

(** src/importers/nationwide_csv.rs:140-145. *)
Definition next_counter_i32 (checks : bool) (prev : option date) (counter : Z) (d : date) : result Z :=
  if bool_decide (Some d = prev) then i32_sum checks (counter + 1) else Ok 0.

(** src/importers/nationwide_csv.rs:133-165. *)
Fixpoint process_rows_i64 (checks : bool) (de : csv_record → result nw_record) (ho : hash_order) (legacy : bool)
    (ns account_name : str) (prev : option date) (counter : Z) (rows : list csv_record)
    : result (list transaction) :=
  match rows with
  | [] => Ok []
  | row :: rows =>
      let! r := de row in
      let d := rec_date r in
      let! counter := next_counter_i32 checks prev counter d in
      let! ps := rec_form_postings_i64 checks ho r ns account_name counter legacy in
      let t := Transaction None d None None None (rec_description r) [ps.1; ps.2] in
      let! ts := process_rows_i64 checks de ho legacy ns account_name (Some d) counter rows in
      Ok (t :: ts)
  end.

(** src/importers/nationwide_csv.rs:96-120, 128-131. *)
Definition process_file_i64 (checks : bool) (pd : date_parser) (ho : hash_order) (o : nw_opts) (ns account_name : str)
    (records : list csv_record) : result (list transaction) :=
  match records with
  | [] => Err EBadHeader
  | headers :: rows =>
      if bool_decide (headers = FIVE_HEADERS)
      then process_rows_i64 checks (λ r, rmap Five (de_five_i64 checks pd r)) ho (nw_legacy o) ns account_name None 0 rows
      else if bool_decide (headers = SIX_HEADERS)
      then process_rows_i64 checks (λ r, rmap Six (de_six_i64 checks pd r)) ho (nw_legacy o) ns account_name None 0 rows
      else Err EBadHeader
  end.

(** src/importers/nationwide_csv.rs:33-39, 501-506. *)
Definition quantity_record_i64 (checks : bool) (want : str) (r : csv_record) : result () :=
  match r with
  | h :: v :: _ => let! _ := gbp_value_i64 checks v in check_header want h
  | _ => Err EBadRecord
  end.

(** src/importers/nationwide_csv.rs:57-92. *)
Definition nw_csv_import_i64 (checks : bool) (pd : date_parser) (ho : hash_order) (o : nw_opts)
    (records : list csv_record) : result (str * list transaction) :=
  match records with
  | name :: balance :: available :: rest =>
      let! name := account_name_record name in
      let! _ := quantity_record_i64 checks (s2l "Account Balance:") balance in
      let! _ := quantity_record_i64 checks (s2l "Available Balance:") available in
      let! ns := make_namespace (nw_fp_ns o) name in
      let! ts := process_file_i64 checks pd ho o ns name rest in
      Ok (ns, ts)
  | _ => Err EBadHeader
  end.

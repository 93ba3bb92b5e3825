(** Model of src/importers/nationwide_csv.rs and src/ledgerutil.rs:6-12.

    The input is the list of CSV records: the fields of each line after decoding
    (windows-1252), CSV lexing and trimming, lines 58-66, which external crates do.
    Parsing of dates, [NaiveDate::parse_from_str(s, "%d %b %Y")] (lines 449-453),
    is a parameter [pd]; theorems quantify over it. *)
From stdpp Require Import gmap list.
From Verif Require Import Base Types CommentModel Sha1 FingerprintModel.
Open Scope N_scope.

Definition csv_record := list str.
Definition date_parser := str → option date.

(** src/ledgerutil.rs:6-12. *)
Definition simple_posting_amount (a : amount) : posting_amount := PostingAmount a None None.

(** src/importers/nationwide_csv.rs:21-25. *)
Definition TRANSACTION_TYPE_TAG : str := s2l "trn_type".
Definition TRANSACTIONS_TAG : str := s2l "transactions".
Definition LOCATION_TAG : str := s2l "location".

(** ** Amounts, src/importers/nationwide_csv.rs:456-519 *)

(** First code points of the blocks of ten digits of Unicode category Nd, the
    class \d of the regex crate (Unicode 16, regex-syntax 0.8.10 in Cargo.lock). *)
Definition nd_blocks : list N :=
  [48; 1632; 1776; 1984; 2406; 2534; 2662; 2790; 2918; 3046; 3174; 3302; 3430; 3558; 3664;
   3792; 3872; 4160; 4240; 6112; 6160; 6470; 6608; 6784; 6800; 6992; 7088; 7232; 7248; 42528;
   43216; 43264; 43472; 43504; 43600; 44016; 65296; 66720; 68912; 69734; 69872; 69942; 70096;
   70384; 70736; 70864; 71248; 71360; 71472; 71904; 72016; 72784; 73040; 73120; 92768; 92864;
   93008; 120782; 120792; 120802; 120812; 120822; 123200; 123632; 125264; 130032;
   73552; 124144; 68928; 71376; 71386; 72688; 118000; 124401].
Definition rx_digit (c : char) : bool :=
  existsb (λ z, (z <=? c) && (c <=? z + 9)) nd_blocks.
Definition ascii_digit (c : char) : bool := (48 <=? c) && (c <=? 57).

Definition POUND : char := 163.
Definition MINUS : char := 45.
Definition DOT : char := 46.

(** The expression of line 481, anchored at the start of [s]: groups 1, 2, 3.
    The classes of adjacent parts are disjoint, so greedy matching needs no
    backtracking. *)
Definition gbp_rx_here (s : str) : option (str * str * str) :=
  match s with
  | c :: s =>
      if c =? POUND then
        let '(sign, s) :=
          match s with m :: s' => if m =? MINUS then ([MINUS], s') else ([], s) | [] => ([], s) end in
        match take_while rx_digit s, drop_while rx_digit s with
        | (_ :: _) as pounds, d :: s =>
            if d =? DOT then
              match take_while rx_digit s with
              | (_ :: _) as pence => Some (sign, pounds, pence)
              | [] => None
              end
            else None
        | _, _ => None
        end
      else None
  | [] => None
  end.
(** [Regex::captures]: leftmost match, anywhere in the text. *)
Fixpoint gbp_rx (s : str) : option (str * str * str) :=
  match gbp_rx_here s with
  | Some g => Some g
  | None => match s with [] => None | _ :: s => gbp_rx s end
  end.

Definition I64_MAX : N := 9223372036854775807.
(** [str::parse::<i64>] on a non-empty text of digits (line 508-519). *)
Definition parse_digits (s : str) : N := foldl (λ n c, 10 * n + (c - 48)) 0 s.
Definition parse_i64 (s : str) : result N :=
  if forallb ascii_digit s && (parse_digits s <=? I64_MAX) then Ok (parse_digits s)
  else Err EBadAmount.

(** src/importers/nationwide_csv.rs:492-495. *)
Definition GBP : commodity := Commodity (s2l "GBP") PosLeft.
(** src/importers/nationwide_csv.rs:479-498.  The multiplication and the addition
    panic on overflow (debug build; NwI64Model.v has both kinds of build). *)
Definition gbp_value (s : str) : result amount :=
  match gbp_rx s with
  | None => Err EBadAmount
  | Some (sign, pounds, pence) =>
      let! pounds := parse_i64 pounds in
      let! pence := parse_i64 pence in
      if pounds * 100 + pence <=? I64_MAX
      then Ok (Amount (Dec (str_eqb sign [MINUS]) 2 (pounds * 100 + pence)) GBP)
      else Panic
  end.

(** ** Records, src/importers/nationwide_csv.rs:338-378 *)

Record record_five := RecordFive {
  r5_date : date; r5_transactions : str; r5_location : str;
  r5_paid_out : option amount; r5_paid_in : option amount }.
Record record_six := RecordSix {
  r6_date : date; r6_type : str; r6_description : str;
  r6_paid_out : option amount; r6_paid_in : option amount; r6_balance : amount }.

(** [StringRecord::deserialize(None)] (csv crate): fields by position; too few
    fields are an error, further fields are ignored; an empty field is [None] for
    an [Option]. *)
Definition de_date (pd : date_parser) (s : str) : result date :=
  match pd s with Some d => Ok d | None => Err EBadDate end.
Definition de_opt_gbp (s : str) : result (option amount) :=
  match s with [] => Ok None | _ => rmap Some (gbp_value s) end.
Definition de_five (pd : date_parser) (r : csv_record) : result record_five :=
  match r with
  | d :: t :: l :: po :: pi :: _ =>
      let! d := de_date pd d in
      let! po := de_opt_gbp po in
      let! pi := de_opt_gbp pi in
      Ok (RecordFive d t l po pi)
  | _ => Err EBadRecord
  end.
Definition de_six (pd : date_parser) (r : csv_record) : result record_six :=
  match r with
  | d :: ty :: de :: po :: pi :: b :: _ =>
      let! d := de_date pd d in
      let! po := de_opt_gbp po in
      let! pi := de_opt_gbp pi in
      let! b := gbp_value b in
      Ok (RecordSix d ty de po pi b)
  | _ => Err EBadRecord
  end.

(** ** Fingerprints *)

(** src/importers/nationwide_csv.rs:350-365. *)
Definition five_fingerprint_v1 (r : record_five) (ns : str) (counter : Z)
    : result (fingerprint * fingerprint) :=
  let! b := builder_new (s2l "nwcsv5") 1 ns in
  Ok (self_and_peer_fingerprints
    (builder_with (with_option with_amount (r5_paid_in r))
    (builder_with (with_option with_amount (r5_paid_out r))
    (builder_with (with_str (r5_location r))
    (builder_with (with_str (r5_transactions r))
    (builder_with (with_i32 counter)
    (builder_with (with_date (r5_date r)) b))))))).

(** src/importers/nationwide_csv.rs:413-429. *)
Definition six_fingerprint_v1 (r : record_six) (ns : str) (counter : Z)
    : result (fingerprint * fingerprint) :=
  let! b := builder_new (s2l "nwcsv6") 1 ns in
  Ok (self_and_peer_fingerprints
    (builder_with (with_amount (r6_balance r))
    (builder_with (with_option with_amount (r6_paid_in r))
    (builder_with (with_option with_amount (r6_paid_out r))
    (builder_with (with_str (r6_description r))
    (builder_with (with_i32 counter)
    (builder_with (with_date (r6_date r))
    (builder_with (with_str (r6_type r)) b)))))))).

(** src/importers/nationwide_csv.rs:383-411. *)
Definition six_fingerprint_legacy (r : record_six) (ns : str) (counter : Z)
    (halves : account_amount * account_amount) : result (fingerprint * fingerprint) :=
  let! b := builder_new [] 0 ns in
  let b :=
    builder_with (with_i32 counter)
    (builder_with (with_amount (r6_balance r))
    (builder_with (with_str [])
    (builder_with (with_date (r6_date r))
    (builder_with (with_str (r6_type r)) b)))) in
  let half h := builder_build
    (builder_with (with_amount (aa_amount h)) (builder_with (with_str (aa_account h)) b)) in
  Ok (half (halves.1), half (halves.2)).

(** ** Postings *)

(** src/importers/nationwide_csv.rs:204-211 = 270-277. *)
Definition self_amount_of (paid_in paid_out : option amount) : result amount :=
  match paid_in, paid_out with
  | Some a, None => Ok a
  | None, Some a => Ok (negate_amount a)
  | _, _ => Err EPaidInOut
  end.

Definition I32_MAX : Z := 2147483647%Z.
(** The value of the tag [seq], lines 230 and 288: [date_counter + 1] panics on
    overflow. *)
Definition seq_value (ns : str) (counter : Z) : result str :=
  if (counter =? I32_MAX)%Z then Panic else Ok (ns ++ s2l "-" ++ show_Z (counter + 1)).

Definition nw_posting (ho : hash_order) (h : account_amount) (bal : option balance) (c : comment)
    : posting :=
  Posting (aa_account h) Real (Some (simple_posting_amount (aa_amount h))) bal None
    (into_opt_comment ho c).

(** src/importers/nationwide_csv.rs:194-253. *)
Definition five_form_postings (ho : hash_order) (r : record_five) (ns account_name : str)
    (counter : Z) : result (posting * posting) :=
  let! self_amount := self_amount_of (r5_paid_in r) (r5_paid_out r) in
  let halves := self_and_peer_account_amount self_amount ASSETS_UNKNOWN in
  let! fp := five_fingerprint_v1 r ns counter in
  let common :=
    with_option_value_tag LOCATION_TAG
      (match r5_location r with [] => None | l => Some l end)
    (with_value_tag TRANSACTIONS_TAG (r5_transactions r)
    (with_value_tag BANK BANK_NAME
    (with_value_tag ACCOUNT account_name
    (with_tag UNKNOWN_ACCOUNT comment_new)))) in
  let! seq := seq_value ns counter in
  let self_comment := with_tag IMPORT_SELF (with_value_tag SEQ seq (with_tag (tag fp.1) common)) in
  let peer_comment := with_tag IMPORT_PEER (with_tag (tag fp.2) common) in
  Ok (nw_posting ho halves.1 None self_comment, nw_posting ho halves.2 None peer_comment).

(** src/importers/nationwide_csv.rs:263-316. *)
Definition six_form_postings (ho : hash_order) (r : record_six) (ns account_name : str)
    (counter : Z) (include_legacy : bool) : result (posting * posting) :=
  let! self_amount := self_amount_of (r6_paid_in r) (r6_paid_out r) in
  let halves := self_and_peer_account_amount self_amount ASSETS_UNKNOWN in
  let common :=
    with_value_tag TRANSACTION_TYPE_TAG (r6_type r)
    (with_value_tag BANK BANK_NAME
    (with_value_tag ACCOUNT account_name
    (with_tag UNKNOWN_ACCOUNT comment_new))) in
  let! fp := six_fingerprint_v1 r ns counter in
  let! seq := seq_value ns counter in
  let self_comment := with_tag IMPORT_SELF (with_value_tag SEQ seq (with_tag (tag fp.1) common)) in
  let peer_comment := with_tag IMPORT_PEER (with_tag (tag fp.2) common) in
  let! (self_comment, peer_comment) :=
    if include_legacy then
      let! l := six_fingerprint_legacy r ns counter halves in
      Ok (with_tag (legacy_tag l.1) self_comment, with_tag (legacy_tag l.2) peer_comment)
    else Ok (self_comment, peer_comment) in
  Ok (nw_posting ho halves.1 (Some (BalAmount (r6_balance r))) self_comment,
      nw_posting ho halves.2 None peer_comment).

(** The trait PostingFormer (171-181) with its two instances. *)
Inductive nw_record := Five (r : record_five) | Six (r : record_six).
Definition rec_date (r : nw_record) : date :=
  match r with Five r => r5_date r | Six r => r6_date r end.
(** src/importers/nationwide_csv.rs:187-193, 260-262. *)
Definition rec_description (r : nw_record) : str :=
  match r with
  | Five r => match r5_location r with
              | [] => r5_transactions r
              | l => r5_transactions r ++ s2l " @ " ++ l
              end
  | Six r => r6_description r
  end.
Definition rec_form_postings (ho : hash_order) (r : nw_record) (ns account_name : str)
    (counter : Z) (include_legacy : bool) : result (posting * posting) :=
  match r with
  | Five r => five_form_postings ho r ns account_name counter
  | Six r => six_form_postings ho r ns account_name counter include_legacy
  end.

(** ** Files *)

(** src/importers/nationwide_csv.rs:44-54, without the input path. *)
Record nw_opts := NwOpts { nw_legacy : bool; nw_fp_ns : fp_namespace_opt }.

(** src/importers/nationwide_csv.rs:140-145: the counter of the row with date [d]
    after a row with date [prev] and counter [counter]; overflow panics. *)
Definition next_counter (prev : option date) (counter : Z) (d : date) : result Z :=
  if bool_decide (Some d = prev)
  then if (counter =? I32_MAX)%Z then Panic else Ok (counter + 1)%Z
  else Ok 0%Z.

(** src/importers/nationwide_csv.rs:133-165, the loop over the rows. *)
Fixpoint process_rows (de : csv_record → result nw_record) (ho : hash_order) (legacy : bool)
    (ns account_name : str) (prev : option date) (counter : Z) (rows : list csv_record)
    : result (list transaction) :=
  match rows with
  | [] => Ok []
  | row :: rows =>
      let! r := de row in
      let d := rec_date r in
      let! counter := next_counter prev counter d in
      let! ps := rec_form_postings ho r ns account_name counter legacy in
      let t := Transaction None d None None None (rec_description r) [ps.1; ps.2] in
      let! ts := process_rows de ho legacy ns account_name (Some d) counter rows in
      Ok (t :: ts)
  end.

Definition FIVE_HEADERS : csv_record :=
  [s2l "Date"; s2l "Transactions"; s2l "Location"; s2l "Paid out"; s2l "Paid in"].
Definition SIX_HEADERS : csv_record :=
  [s2l "Date"; s2l "Transaction type"; s2l "Description"; s2l "Paid out"; s2l "Paid in"; s2l "Balance"].

(** src/importers/nationwide_csv.rs:96-120, 128-131. *)
Definition process_file (pd : date_parser) (ho : hash_order) (o : nw_opts) (ns account_name : str)
    (records : list csv_record) : result (list transaction) :=
  match records with
  | [] => Err EBadHeader
  | headers :: rows =>
      if bool_decide (headers = FIVE_HEADERS)
      then process_rows (λ r, rmap Five (de_five pd r)) ho (nw_legacy o) ns account_name None 0 rows
      else if bool_decide (headers = SIX_HEADERS)
      then process_rows (λ r, rmap Six (de_six pd r)) ho (nw_legacy o) ns account_name None 0 rows
      else Err EBadHeader
  end.

(** src/importers/nationwide_csv.rs:27-39, 501-506, 521-533. *)
Definition check_header (want : str) (got : str) : result () :=
  if str_eqb want got then Ok () else Err EBadHeader.
Definition account_name_record (r : csv_record) : result str :=
  match r with
  | h :: n :: _ => let! _ := check_header (s2l "Account Name:") h in Ok n
  | _ => Err EBadRecord
  end.
Definition quantity_record (want : str) (r : csv_record) : result () :=
  match r with
  | h :: v :: _ => let! _ := gbp_value v in check_header want h
  | _ => Err EBadRecord
  end.

(** src/importers/nationwide_csv.rs:57-92: the namespace and the transactions. *)
Definition nw_csv_import (pd : date_parser) (ho : hash_order) (o : nw_opts)
    (records : list csv_record) : result (str * list transaction) :=
  match records with
  | name :: balance :: available :: rest =>
      let! name := account_name_record name in
      let! _ := quantity_record (s2l "Account Balance:") balance in
      let! _ := quantity_record (s2l "Available Balance:") available in
      let! ns := make_namespace (nw_fp_ns o) name in
      let! ts := process_file pd ho o ns name rest in
      Ok (ns, ts)
  | _ => Err EBadHeader
  end.

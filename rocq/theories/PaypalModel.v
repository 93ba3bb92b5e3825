(** Model of src/importers/paypal_csv.rs.

    The input is the list of deserialised rows (lines 236-243, 256-344): CSV
    lexing, date and time parsing and the conversion of numbers (which the csv
    crate routes through f64) happen in external crates. *)
From stdpp Require Import gmap list.
From Verif Require Import Base Types CommentModel Sha1 FingerprintModel NwCsvModel TzModel.
Open Scope N_scope.

(** src/importers/paypal_csv.rs:21-23. *)
Definition TRANSACTION_NAME_TAG : str := s2l "trn_name".
Definition PP_TYPE_TAG : str := s2l "trn_type".

(** src/importers/paypal_csv.rs:304-308. *)
Inductive pp_status := PpCompleted | PpPending.
(** src/importers/paypal_csv.rs:310-319. *)
Definition pp_status_into (s : pp_status) : status :=
  match s with PpCompleted => Cleared | PpPending => Pending end.

(** src/importers/paypal_csv.rs:256-278. *)
Record pp_row := PpRow {
  pr_date : date; pr_time : time; pr_time_zone : str; pr_name : option str; pr_type : str;
  pr_status : pp_status; pr_currency : str; pr_amount : decimal; pr_receipt_id : option str;
  pr_balance : decimal }.

(** Days since 1970-01-01 of a date of the proleptic Gregorian calendar. *)
Definition days_of_date (d : date) : Z :=
  let '(y, m, d) := d in
  let y := (if (m <=? 2)%N then y - 1 else y)%Z in
  let era := (y / 400)%Z in
  let yoe := (y - era * 400)%Z in
  let mp := ((Z.of_N m + 9) mod 12)%Z in
  let doy := ((153 * mp + 2) / 5 + Z.of_N d - 1)%Z in
  (era * 146097 + (yoe * 365 + yoe / 4 - yoe / 100 + doy) - 719468)%Z.
(** A point in time: seconds since 1970-01-01T00:00:00Z and nanoseconds.
    [DateTime] values of different offsets are equal if they denote the same
    instant. *)
Definition instant := (Z * N)%type.
(** [FixedOffset::from_local_datetime] (line 210): always a single result.
    Simplification: overflow at the ends of chrono's range of years. *)
Definition local_instant (d : date) (t : time) (o : fixed_offset) : instant :=
  let '(h, m, s, n) := t in
  ((days_of_date d * 86400 + Z.of_N (h * 3600 + m * 60 + s) - o)%Z, n).

(** src/importers/paypal_csv.rs:168-177. *)
Record pp_record := PpRecord {
  pp_datetime : instant; pp_name : option str; pp_type : str; pp_rstatus : pp_status;
  pp_amount : amount; pp_balance : amount; pp_receipt_id : option str; pp_partial_fp : builder }.

(** src/importers/paypal_csv.rs:180-233, 346-351. *)
Definition from_csv_record (db : tz_db) (ns : str) (v : pp_row) : result pp_record :=
  let commodity := Commodity (pr_currency v) PosLeft in
  let amount := Amount (pr_amount v) commodity in
  let balance := Amount (pr_balance v) commodity in
  let! b := builder_new (s2l "ppcsv") 1 ns in
  let partial_fp :=
    builder_with (with_amount balance)
    (builder_with (with_amount amount)
    (builder_with (with_str (pr_type v))
    (builder_with (with_option with_str (pr_name v))
    (builder_with (with_str (pr_time_zone v))
    (builder_with (with_time (pr_time v))
    (builder_with (with_date (pr_date v)) b)))))) in
  match abbr_to_tz db (pr_time_zone v) with
  | None => Err ENoTimezone
  | Some tz =>
      Ok (PpRecord (local_instant (pr_date v) (pr_time v) tz) (pr_name v) (pr_type v)
            (pr_status v) amount balance (pr_receipt_id v) partial_fp)
  end.

(** src/importers/paypal_csv.rs:114-165; the pair is (self, peer). *)
Definition pp_form_postings (ho : hash_order) (legacy : bool) (r : pp_record) : posting * posting :=
  let fp := self_and_peer_fingerprints (pp_partial_fp r) in
  let self_comment :=
    with_tag (tag fp.1)
    (with_option_value_tag (s2l "receipt_id") (pp_receipt_id r)
    (with_option_tag (if legacy then Some (legacy_tag fp.1) else None)
    (with_tag UNKNOWN_ACCOUNT (with_tag IMPORT_SELF comment_new)))) in
  let peer_comment :=
    with_option_value_tag TRANSACTION_NAME_TAG (pp_name r)
    (with_value_tag PP_TYPE_TAG (pp_type r)
    (with_option_tag (if legacy then Some (legacy_tag fp.2) else None)
    (with_tag UNKNOWN_ACCOUNT (with_tag IMPORT_PEER comment_new)))) in
  let halves := self_and_peer_account_amount (pp_amount r) ASSETS_UNKNOWN in
  let st := Some (pp_status_into (pp_rstatus r)) in
  (Posting (aa_account halves.1) Real (Some (simple_posting_amount (aa_amount halves.1)))
     (Some (BalAmount (pp_balance r))) st (into_opt_comment ho self_comment),
   Posting (aa_account halves.2) Real (Some (simple_posting_amount (aa_amount halves.2)))
     None st (into_opt_comment ho peer_comment)).

(** [itertools::chunk_by] (line 75): runs of consecutive equal keys, in order. *)
Fixpoint chunk_by {A K} `{EqDecision K} (key : A → K) (l : list A) : list (K * list A) :=
  match l with
  | [] => []
  | x :: l =>
      match chunk_by key l with
      | (k, g) :: gs => if decide (key x = k) then (k, x :: g) :: gs else (key x, [x]) :: (k, g) :: gs
      | [] => [(key x, [x])]
      end
  end.

(** src/importers/paypal_csv.rs:97. *)
Definition with_index (i : nat) (r : pp_record) : pp_record :=
  PpRecord (pp_datetime r) (pp_name r) (pp_type r) (pp_rstatus r) (pp_amount r) (pp_balance r)
    (pp_receipt_id r) (builder_with (with_usize (N.of_nat i)) (pp_partial_fp r)).

Fixpoint find_map {A B} (f : A → option B) (l : list A) : option B :=
  match l with
  | [] => None
  | x :: l => match f x with Some b => Some b | None => find_map f l end
  end.

(** src/importers/paypal_csv.rs:83-112.  [tz] is the date of an instant in the
    output time zone (chrono_tz, external). *)
Definition pp_form_transaction (ho : hash_order) (legacy : bool) (tz : instant → date)
    (g : instant * list pp_record) : result transaction :=
  match find_map pp_name g.2 with
  | None => Err ENoDescription
  | Some description =>
      let postings := mjoin (imap (λ i r,
        let '(p1, p2) := pp_form_postings ho legacy (with_index i r) in [p1; p2]) g.2) in
      Ok (Transaction None (tz g.1) None None None description postings)
  end.

(** src/importers/paypal_csv.rs:65-81 (and 44-61). *)
Definition pp_import (ho : hash_order) (legacy : bool) (tz : instant → date) (db : tz_db) (ns : str)
    (rows : list pp_row) : result (list transaction) :=
  let! records := rmapM (from_csv_record db ns) rows in
  rmapM (pp_form_transaction ho legacy tz) (chunk_by pp_datetime records).

(** Model of src/importers/nationwide_pdf.rs, from the recognised text on
    (the processes of lines 76-152 are not modelled).

    Simplification: coordinates are unbounded integers; PdfI32Model.v has them as
    [i32] and C109 is the comparison. *)
From stdpp Require Import list.
From Verif Require Import Base Types CommentModel Sha1 FingerprintModel NwCsvModel OcrModel.
Local Open Scope Z_scope.

(** What external crates parse: [Decimal::from_str]; a year, a day of the month,
    the short name of a month by chrono's items (lines 591-596); the format
    "Effective Date %d %b %Y" (line 245). *)
Record pdf_env := PdfEnv {
  pe_decimal : str → option decimal;
  pe_year : str → option Z;
  pe_day : str → option N;
  pe_month : str → option N;
  pe_effective : str → option date;
}.

(** src/importers/nationwide_pdf.rs:400-413. *)
Definition parse_amount (E : pdf_env) (s : str) : result amount :=
  let q := if contains (s2l ",") s then pe_decimal E (filter (λ c, c ≠ 44%N) s) else pe_decimal E s in
  match q with Some q => Ok (Amount q GBP) | None => Err EBadAmount end.

(** ** Tables, src/importers/nationwide_pdf.rs:417-695 *)

(** src/importers/nationwide_pdf.rs:505-515. *)
Record trn_line := TrnLine {
  tl_date : option date; tl_detail : str;
  tl_payment : option str; tl_receipt : option str; tl_balance : option str;
  tl_top : Z; tl_height : Z }.

(** src/importers/nationwide_pdf.rs:656-687. *)
Definition collect_words_in (b : bounds) (l : line) : list str :=
  wd_text <$> filter (λ w, overlaps b (horiz_bounds w) = true) (ln_words l).
Definition join_words_in (b : bounds) (l : line) : option str :=
  match join (s2l " ") (collect_words_in b l) with [] => None | s => Some s end.

(** src/importers/nationwide_pdf.rs:538-545. *)
Record columns := Columns {
  co_header : nat; co_date : bounds; co_details : bounds; co_payments : bounds;
  co_receipts : bounds; co_balance : bounds }.
(** src/importers/nationwide_pdf.rs:557-583. *)
Definition find_in_line (idx : nat) (l : line) : option columns :=
  match ln_words l with
  | w0 :: w1 :: w2 :: w3 :: w4 :: _ =>
      if str_eqb (wd_text w0) (s2l "Date") && str_eqb (wd_text w1) (s2l "Details")
         && str_eqb (wd_text w2) (s2l "Payments") && str_eqb (wd_text w3) (s2l "Receipts")
         && str_eqb (wd_text w4) (s2l "Balance")
      then Some (Columns idx (horiz_bounds w0) (Bounds (wd_left w1) (wd_left w2))
             (Bounds (wd_left w2) (wd_left w3)) (Bounds (wd_left w3) (wd_left w4)) (horiz_bounds w4))
      else None
  | _ => None
  end.
(** src/importers/nationwide_pdf.rs:548-555. *)
Fixpoint find_in_lines (idx : nat) (ls : list line) : option columns :=
  match ls with
  | [] => None
  | l :: ls => match find_in_line idx l with Some c => Some c | None => find_in_lines (S idx) ls end
  end.
Definition find_in_paragraph (p : paragraph) : option columns := find_in_lines 0 (pa_lines p).

(** [NaiveDate::from_ymd_opt] (chrono), reached through [Parsed::to_naive_date]. *)
Definition leap_year (y : Z) : bool :=
  (y mod 4 =? 0) && (negb (y mod 100 =? 0) || (y mod 400 =? 0)).
Definition month_days (y : Z) (m : N) : N :=
  match m with
  | 1 | 3 | 5 | 7 | 8 | 10 | 12 => 31
  | 4 | 6 | 9 | 11 => 30
  | 2 => if leap_year y then 29 else 28
  | _ => 0
  end%N.
Definition from_ymd (y : Z) (m d : N) : result date :=
  if ((1 <=? d) && (d <=? month_days y m))%N then Ok (y, m, d) else Err EBadDate.

(** src/importers/nationwide_pdf.rs:431-432. *)
Definition EARLIEST_YEAR : Z := 1980.
Definition LATEST_YEAR : Z := 2100.
(** src/importers/nationwide_pdf.rs:690-694. *)
Inductive date_field := DfNothing | DfYear | DfDayMonth.
(** src/importers/nationwide_pdf.rs:585-639.  Of the fields of [Parsed] only the
    year lives longer than one call: the month and the day are reset before they are
    read again. *)
Definition update_date_from_line (E : pdf_env) (c : columns) (year : option Z) (d : option date) (l : line)
    : result (date_field * option Z * option date) :=
  match collect_words_in (co_date c) l with
  | [] => Ok (DfNothing, year, d)
  | [y] =>
      match pe_year E y with
      | None => Err EBadDate
      | Some y => if (EARLIEST_YEAR <=? y) && (y <=? LATEST_YEAR) then Ok (DfYear, Some y, d) else Err EBadDate
      end
  | [day; month] =>
      match pe_day E day, pe_month E month, year with
      | Some day, Some month, Some y => let! d := from_ymd y month day in Ok (DfDayMonth, year, Some d)
      | _, _, _ => Err EBadDate
      end
  | _ => Err EBadTable
  end.

(** src/importers/nationwide_pdf.rs:449-488, the loop. *)
Fixpoint read_table_lines (E : pdf_env) (c : columns) (year : option Z) (d : option date) (ls : list line)
    : result (list trn_line) :=
  match ls with
  | [] => Ok []
  | l :: ls =>
      let! (f, year, d) := update_date_from_line E c year d l in
      let! rest := read_table_lines E c year d ls in
      match f with
      | DfYear => Ok rest
      | _ =>
          match join_words_in (co_details c) l with
          | None => Ok rest
          | Some detail =>
              Ok (TrnLine d detail (join_words_in (co_payments c) l) (join_words_in (co_receipts c) l)
                    (join_words_in (co_balance c) l) (ln_top l) (ln_height l) :: rest)
          end
      end
  end.
(** src/importers/nationwide_pdf.rs:434-437. *)
Record pdf_table := Table { tb_columns : columns; tb_para : paragraph }.
(** src/importers/nationwide_pdf.rs:449-488. *)
Definition read_lines (E : pdf_env) (t : pdf_table) : result (list trn_line) :=
  read_table_lines E (tb_columns t) None None (drop (S (co_header (tb_columns t))) (pa_lines (tb_para t))).
(** src/importers/nationwide_pdf.rs:440-447. *)
Definition find_in_page (p : page) : list pdf_table :=
  omap (λ para, match find_in_paragraph para with Some c => Some (Table c para) | None => None end)
    (pg_blocks p ≫= bk_paragraphs).

(** ** Transactions *)

(** src/importers/nationwide_pdf.rs:292-305. *)
Inductive trn_type := Payment | Receipt.
Record trn_builder := TrnBuilder {
  tb_date : date; tb_counter : Z; tb_amount : amount; tb_type : trn_type;
  tb_effective : option date; tb_description : str; tb_balance : option amount }.
(** src/importers/nationwide_pdf.rs:308-334. *)
Definition builder_of (d : option date) (counter : Z) (a : amount) (ty : trn_type) (desc : str) : result trn_builder :=
  match d with
  | None => Err EBadDate
  | Some d => if d_neg (a_quantity a) then Err EBadAmount else Ok (TrnBuilder d counter a ty None desc None)
  end.
(** src/importers/nationwide_pdf.rs:336-397. *)
Definition build_trn (ho : hash_order) (ns : str) (b : trn_builder) : result transaction :=
  let! fb := builder_new (s2l "nwpdf") 1 ns in
  let record_fpb :=
    builder_with (with_str (tb_description b)) (builder_with (with_i32 (tb_counter b)) (builder_with (with_date (tb_date b)) fb)) in
  let halves := self_and_peer_account_amount
    (match tb_type b with Payment => negate_amount (tb_amount b) | Receipt => tb_amount b end) ASSETS_UNKNOWN in
  let comment_base := with_tag UNKNOWN_ACCOUNT (with_value_tag BANK BANK_NAME comment_new) in
  let fp h := builder_build (builder_with (with_amount (aa_amount h)) (builder_with (with_str (aa_account h)) record_fpb)) in
  let! seq := seq_value ns (tb_counter b) in
  let self_comment := with_tag (legacy_tag (fp halves.1)) (with_tag IMPORT_SELF (with_value_tag SEQ seq comment_base)) in
  let peer_comment := with_tag (legacy_tag (fp halves.2)) (with_tag IMPORT_PEER comment_base) in
  Ok (Transaction None (tb_date b) (tb_effective b) None None (tb_description b)
    [nw_posting ho halves.1 (BalAmount <$> tb_balance b) self_comment; nw_posting ho halves.2 None peer_comment]).

(** src/importers/nationwide_pdf.rs:180-197. *)
Record pdf_acc := Accumulator {
  ac_ns : str; ac_current : option trn_builder; ac_prev_date : option date; ac_counter : Z;
  ac_trns : list transaction }.
Definition pdf_acc_new (ns : str) : pdf_acc := Accumulator ns None None 0 [].
(** src/importers/nationwide_pdf.rs:279-284. *)
Definition flush_transaction (ho : hash_order) (a : pdf_acc) : result pdf_acc :=
  match ac_current a with
  | None => Ok a
  | Some b => let! t := build_trn ho (ac_ns a) b in
      Ok (Accumulator (ac_ns a) None (ac_prev_date a) (ac_counter a) (ac_trns a ++ [t]))
  end.
(** src/importers/nationwide_pdf.rs:286-289. *)
Definition acc_build (ho : hash_order) (a : pdf_acc) : result (list transaction) :=
  let! a := flush_transaction ho a in Ok (ac_trns a).

(** src/importers/nationwide_pdf.rs:209-224, 225-240; the counter overflows with a
    panic. *)
Definition start_transaction (E : pdf_env) (ho : hash_order) (a : pdf_acc) (l : trn_line) (s : str) (ty : trn_type)
    : result pdf_acc :=
  let! a := flush_transaction ho a in
  let! counter :=
    if bool_decide (tl_date l = ac_prev_date a)
    then if ac_counter a =? I32_MAX then Panic else Ok (ac_counter a + 1)
    else Ok 0 in
  let! amt := parse_amount E s in
  let! b := builder_of (tl_date l) counter amt ty (tl_detail l) in
  Ok (Accumulator (ac_ns a) (Some b) (ac_prev_date a) counter (ac_trns a)).
(** src/importers/nationwide_pdf.rs:264-276: the end of [feed_line]. *)
Definition end_line (E : pdf_env) (a : pdf_acc) (l : trn_line) : result pdf_acc :=
  match ac_current a, tl_balance l with
  | Some b, Some bal =>
      let! bal := parse_amount E bal in
      Ok (Accumulator (ac_ns a)
        (Some (TrnBuilder (tb_date b) (tb_counter b) (tb_amount b) (tb_type b) (tb_effective b) (tb_description b) (Some bal)))
        (tl_date l) (ac_counter a) (ac_trns a))
  | _, _ => Ok (Accumulator (ac_ns a) (ac_current a) (tl_date l) (ac_counter a) (ac_trns a))
  end.
(** src/importers/nationwide_pdf.rs:199-277. *)
Definition feed_line (E : pdf_env) (ho : hash_order) (a : pdf_acc) (l : trn_line) : result pdf_acc :=
  match tl_payment l, tl_receipt l with
  | Some _, Some _ => Err EPaidInOut
  | Some s, None => let! a := start_transaction E ho a l s Payment in end_line E a l
  | None, Some s => let! a := start_transaction E ho a l s Receipt in end_line E a l
  | None, None =>
      match ac_current a with
      | None => Ok a
      | Some b =>
          let! b :=
            match tl_detail l with
            | [] => Ok b
            | detail =>
                if starts_with (s2l "Effective Date ") detail then
                  match pe_effective E detail with
                  | None => Err EBadDate
                  | Some e => Ok (TrnBuilder (tb_date b) (tb_counter b) (tb_amount b) (tb_type b) (Some e) (tb_description b) (tb_balance b))
                  end
                else Ok (TrnBuilder (tb_date b) (tb_counter b) (tb_amount b) (tb_type b) (tb_effective b)
                           (tb_description b ++ s2l " " ++ detail) (tb_balance b))
            end in
          end_line E (Accumulator (ac_ns a) (Some b) (ac_prev_date a) (ac_counter a) (ac_trns a)) l
      end
  end.
(** src/importers/nationwide_pdf.rs:154-177. *)
Fixpoint lines_to_transactions (E : pdf_env) (ho : hash_order) (prev : option trn_line) (a : pdf_acc) (ls : list trn_line)
    : result pdf_acc :=
  match ls with
  | [] => Ok a
  | l :: ls =>
      if match prev with Some p => tl_top p + tl_height p * 2 <? tl_top l | None => false end then Ok a
      else let! a := feed_line E ho a l in lines_to_transactions E ho (Some l) a ls
  end.

(** src/importers/nationwide_pdf.rs:705-738.  [\d] is the Unicode class. *)
Definition sort_code_rx (s : str) : bool :=
  match s with
  | [a; b; d1; c; d; d2; e; f] =>
      rx_digit a && rx_digit b && (d1 =? MINUS)%N && rx_digit c && rx_digit d && (d2 =? MINUS)%N && rx_digit e && rx_digit f
  | _ => false
  end.
Definition acct_num_rx (s : str) : bool := bool_decide (length s = 8%nat) && forallb rx_digit s.
Definition account_name_in (l : line) : option str :=
  match ln_words l with
  | w0 :: w1 :: w2 :: w3 :: _ =>
      if str_eqb (wd_text w0) (s2l "Account") && str_eqb (wd_text w1) (s2l "Number")
         && sort_code_rx (wd_text w2) && acct_num_rx (wd_text w3)
      then Some (wd_text w2 ++ s2l " " ++ wd_text w3) else None
  | _ => None
  end.
Fixpoint first_account_name (ls : list line) : option str :=
  match ls with
  | [] => None
  | l :: ls => match account_name_in l with Some n => Some n | None => first_account_name ls end
  end.
Definition find_account_name (doc : document) : option str := first_account_name (iter_paragraphs doc ≫= pa_lines).

(** src/importers/nationwide_pdf.rs:52-66. *)
Fixpoint read_tables (E : pdf_env) (ho : hash_order) (a : pdf_acc) (ts : list pdf_table) : result pdf_acc :=
  match ts with
  | [] => Ok a
  | t :: ts =>
      let! ls := read_lines E t in
      let! a := lines_to_transactions E ho None a ls in
      read_tables E ho a ts
  end.
(** src/importers/nationwide_pdf.rs:43-74, after [ocr_document]: namespace and transactions. *)
Definition pdf_import (E : pdf_env) (ho : hash_order) (o : fp_namespace_opt) (doc : document)
    : result (str * list transaction) :=
  match find_account_name doc with
  | None => Err EBadHeader
  | Some name =>
      let! ns := make_namespace o name in
      let! a := read_tables E ho (pdf_acc_new ns) (doc ≫= find_in_page) in
      let! ts := acc_build ho a in
      Ok (ns, ts)
  end.
(** With the recognised text as the TSV records read (lines 144-149). *)
Definition pdf_import_tsv (E : pdf_env) (ho : hash_order) (o : fp_namespace_opt) (rs : list (option ocr_record))
    : result (str * list transaction) :=
  let! doc := from_tsv rs in pdf_import E ho o doc.

(** Model of the arithmetic on coordinates in src/importers/{tesseract,nationwide_pdf}.rs
    as it is done on [i32].

    A sum or product that does not fit panics in a build with overflow checks
    (cargo's default for debug builds), [checks = true], and wraps around in a build
    without (release builds), [checks = false].  Everything else is as in PdfModel.v. *)
From stdpp Require Import list.
From Verif Require Import Base Types CommentModel FingerprintModel NwCsvModel OcrModel PdfModel.
Local Open Scope Z_scope.

(** The values of [i32], and wrapping around to one. *)
Definition fits_i32 (z : Z) : bool := (-2147483648 <=? z) && (z <=? 2147483647).
Definition wrap_i32 (z : Z) : Z := (z + 2147483648) mod 4294967296 - 2147483648.
Definition i32_of (checks : bool) (z : Z) : result Z :=
  if fits_i32 z then Ok z else if checks then Panic else Ok (wrap_i32 z).

(** src/importers/tesseract.rs:257-264. *)
Definition horiz_bounds_i32 (checks : bool) (w : word) : result bounds :=
  let! m := i32_of checks (wd_left w + wd_width w) in Ok (Bounds (wd_left w) m).
(** src/importers/nationwide_pdf.rs:666-687. *)
Fixpoint words_in_i32 (checks : bool) (b : bounds) (ws : list word) : result (list str) :=
  match ws with
  | [] => Ok []
  | w :: ws =>
      let! wb := horiz_bounds_i32 checks w in
      let! rest := words_in_i32 checks b ws in
      Ok (if overlaps b wb then wd_text w :: rest else rest)
  end.
Definition collect_words_in_i32 (checks : bool) (b : bounds) (l : line) : result (list str) := words_in_i32 checks b (ln_words l).
Definition join_words_in_i32 (checks : bool) (b : bounds) (l : line) : result (option str) :=
  let! ws := collect_words_in_i32 checks b l in
  Ok (match join (s2l " ") ws with [] => None | s => Some s end).
(** src/importers/nationwide_pdf.rs:557-583. *)
Definition find_in_line_i32 (checks : bool) (idx : nat) (l : line) : result (option columns) :=
  match ln_words l with
  | w0 :: w1 :: w2 :: w3 :: w4 :: _ =>
      if str_eqb (wd_text w0) (s2l "Date") && str_eqb (wd_text w1) (s2l "Details")
         && str_eqb (wd_text w2) (s2l "Payments") && str_eqb (wd_text w3) (s2l "Receipts")
         && str_eqb (wd_text w4) (s2l "Balance")
      then
        let! d := horiz_bounds_i32 checks w0 in
        let! b := horiz_bounds_i32 checks w4 in
        Ok (Some (Columns idx d (Bounds (wd_left w1) (wd_left w2))
          (Bounds (wd_left w2) (wd_left w3)) (Bounds (wd_left w3) (wd_left w4)) b))
      else Ok None
  | _ => Ok None
  end.
(** src/importers/nationwide_pdf.rs:548-555. *)
Fixpoint find_in_lines_i32 (checks : bool) (idx : nat) (ls : list line) : result (option columns) :=
  match ls with
  | [] => Ok None
  | l :: ls =>
      let! c := find_in_line_i32 checks idx l in
      match c with Some c => Ok (Some c) | None => find_in_lines_i32 checks (S idx) ls end
  end.
(** src/importers/nationwide_pdf.rs:585-639. *)
Definition update_date_i32 (checks : bool) (E : pdf_env) (c : columns) (year : option Z) (d : option date) (l : line)
    : result (date_field * option Z * option date) :=
  let! ws := collect_words_in_i32 checks (co_date c) l in
  match ws with
  | [] => Ok (DfNothing, year, d)
  | [y] =>
      match pe_year E y with
      | None => Err EBadDate
      | Some y => if (EARLIEST_YEAR <=? y) && (y <=? LATEST_YEAR) then Ok (DfYear, Some y, d) else Err EBadDate
      end
  | [day; month] =>
      match pe_day E day, pe_month E month, year with
      | Some day, Some month, Some y => let! d := from_ymd y month day in Ok (DfDayMonth, year, Some d)
      | _, _, _ => Err EBadDate
      end
  | _ => Err EBadTable
  end.
(** src/importers/nationwide_pdf.rs:469-483: the line of a transaction, or none. *)
Definition table_line_i32 (checks : bool) (c : columns) (d : option date) (l : line) : result (option trn_line) :=
  let! detail := join_words_in_i32 checks (co_details c) l in
  match detail with
  | None => Ok None
  | Some detail =>
      let! payment := join_words_in_i32 checks (co_payments c) l in
      let! receipt := join_words_in_i32 checks (co_receipts c) l in
      let! balance := join_words_in_i32 checks (co_balance c) l in
      Ok (Some (TrnLine d detail payment receipt balance (ln_top l) (ln_height l)))
  end.
(** src/importers/nationwide_pdf.rs:449-488. *)
Fixpoint read_table_lines_i32 (checks : bool) (E : pdf_env) (c : columns) (year : option Z) (d : option date) (ls : list line)
    : result (list trn_line) :=
  match ls with
  | [] => Ok []
  | l :: ls =>
      let! (f, year, d) := update_date_i32 checks E c year d l in
      let! t := match f with DfYear => Ok None | _ => table_line_i32 checks c d l end in
      let! rest := read_table_lines_i32 checks E c year d ls in
      Ok (match t with Some t => t :: rest | None => rest end)
  end.
(** src/importers/nationwide_pdf.rs:154-177; the product of line 163 first. *)
Definition gap_i32 (checks : bool) (p l : trn_line) : result bool :=
  let! h := i32_of checks (tl_height p * 2) in
  let! e := i32_of checks (tl_top p + h) in
  Ok (e <? tl_top l).
Fixpoint lines_to_transactions_i32 (checks : bool) (E : pdf_env) (ho : hash_order) (prev : option trn_line) (a : pdf_acc)
    (ls : list trn_line) : result pdf_acc :=
  match ls with
  | [] => Ok a
  | l :: ls =>
      let! gap := match prev with Some p => gap_i32 checks p l | None => Ok false end in
      if gap : bool then Ok a
      else let! a := feed_line E ho a l in lines_to_transactions_i32 checks E ho (Some l) a ls
  end.
(** src/importers/nationwide_pdf.rs:52-66, 440-447: the paragraphs of all pages in
    order; a table is looked for when the one before has been read. *)
Fixpoint read_paragraphs_i32 (checks : bool) (E : pdf_env) (ho : hash_order) (a : pdf_acc) (ps : list paragraph) : result pdf_acc :=
  match ps with
  | [] => Ok a
  | p :: ps =>
      let! c := find_in_lines_i32 checks 0 (pa_lines p) in
      match c with
      | None => read_paragraphs_i32 checks E ho a ps
      | Some c =>
          let! ls := read_table_lines_i32 checks E c None None (drop (S (co_header c)) (pa_lines p)) in
          let! a := lines_to_transactions_i32 checks E ho None a ls in
          read_paragraphs_i32 checks E ho a ps
      end
  end.
(** src/importers/nationwide_pdf.rs:43-74, after [ocr_document]. *)
Definition pdf_import_i32 (checks : bool) (E : pdf_env) (ho : hash_order) (o : fp_namespace_opt) (doc : document)
    : result (str * list transaction) :=
  match find_account_name doc with
  | None => Err EBadHeader
  | Some name =>
      let! ns := make_namespace o name in
      let! a := read_paragraphs_i32 checks E ho (pdf_acc_new ns) (iter_paragraphs doc) in
      let! ts := acc_build ho a in
      Ok (ns, ts)
  end.
(** With the recognised text as the TSV records read. *)
Definition pdf_import_tsv_i32 (checks : bool) (E : pdf_env) (ho : hash_order) (o : fp_namespace_opt) (rs : list (option ocr_record))
    : result (str * list transaction) :=
  let! doc := from_tsv rs in pdf_import_i32 checks E ho o doc.

(** Model of the importers as they are run by the import command: reading their
    files, the programs run for a PDF statement, and the option for the namespace.
    src/importers/{nationwide,nationwide_csv,nationwide_pdf,paypal_csv,cmd}.rs. *)
From stdpp Require Import gmap list pretty.
From Verif Require Import Base Types CommentModel MergeModel CmdModel Sha1 FingerprintModel NwCsvModel TzModel PaypalModel OcrModel PdfModel.
Local Open Scope nat_scope.

(** * Options *)

(** src/importers/nationwide.rs:63-84.  [ron] is the ron crate reading a map; the
    path goes through [FileSpec::from_str], so "lookup:-" reads stdin. *)
Definition fp_namespace_of (E : env) (ron : str → option (gmap str str)) (s : str) : io fp_namespace_opt :=
  let fixed_prefix := s2l "fixed:" in
  let lookup_prefix := s2l "lookup:" in
  if str_eqb s (s2l "account-name") then io_ret NsAccountName
  else if str_eqb s (s2l "generated") then io_ret NsGenerated
  else if starts_with fixed_prefix s then io_ret (NsFixed (drop (length fixed_prefix) s))
  else if starts_with lookup_prefix s then
    do! text := read_file E (filespec_of (drop (length lookup_prefix) s)) in
    io_of (match ron text with Some t => Ok (NsLookup t) | None => Err EParse end)
  else io_fail EOther.

(** * The programs run for a PDF statement, src/importers/nationwide_pdf.rs:76-152 *)

(** The files of the temporary directory, by name.  It is made for this import and
    removed when the import ends (tempfile crate), so it is not part of the world. *)
Definition tmpfiles := gmap str str.
(** What running the two programs does, and the csv crate's reading of TSV text.
    [None]: the program cannot be started; otherwise its exit status and the files it
    leaves.  The PDF file is read by the first program. *)
Record ocr_tools := OcrTools {
  ot_dir : str;                                  (* path of the temporary directory *)
  ot_tempdir : bool;                             (* it cannot be made *)
  ot_convert : tmpfiles → option (Z * tmpfiles); (* gm convert *)
  ot_list : bool;                                (* the list of pages cannot be written *)
  ot_tesseract : tmpfiles → option (Z * tmpfiles);
  ot_tsv : str → list (option ocr_record);
}.
Definition ends_with (p s : str) : bool := starts_with (reverse p) (reverse s).
(** The pattern page-*.png (line 82). *)
Definition page_png (name : str) : bool :=
  let pre := s2l "page-" in let suf := s2l ".png" in
  (length pre + length suf <=? length name) && starts_with pre name && ends_with suf name.
(** [glob::glob] (line 114): the names that match in alphabetical order, whatever
    the order of the directory.  Simplification: the path of the directory has no pattern
    characters. *)
Definition glob_pages (ho : hash_order) (d : tmpfiles) : list str :=
  stable_sort str_leb (filter (λ n, page_png n = true) (ho_strs ho _ d).*1).
Definition in_dir (T : ocr_tools) (name : str) : str := ot_dir T ++ s2l "/" ++ name.
(** src/importers/nationwide_pdf.rs:107-121. *)
Definition list_text (T : ocr_tools) (names : list str) : str := names ≫= λ n, in_dir T n ++ [NL].
Definition PNG_LIST : str := s2l "png-files.txt".
Definition OCR_OUTPUT : str := s2l "ocr.tsv".
(** src/importers/nationwide_pdf.rs:76-152.  [Command::status] fails only if the
    program cannot be run; the exit status it returns is dropped (lines 101-104, 140-143). *)
Definition ocr_document (T : ocr_tools) (ho : hash_order) : result document :=
  if ot_tempdir T then Err EIo else
  match ot_convert T ∅ with
  | None => Err EIo
  | Some (_, d) =>
      if ot_list T then Err EIo else
      let d := <[PNG_LIST := list_text T (glob_pages ho d)]> d in
      match ot_tesseract T d with
      | None => Err EIo
      | Some (_, d) =>
          match d !! OCR_OUTPUT with
          | None => Err EIo
          | Some text => from_tsv (ot_tsv T text)
          end
      end
  end.

(** * Importers *)

(** What the csv crate makes of the text of a file (with decoding, trimming, and for
    PayPal deserialization, src/importers/paypal_csv.rs:236-244); [None]: an error.  The
    crate reads as it goes; errors of any row fail the import. *)
Record csv_env := CsvEnv {
  ce_nationwide : str → option (list csv_record);
  ce_paypal : str → option (list pp_row);
  ce_abbr : str → option (list (str * str));
}.
Definition some_or {A} (e : err) (o : option A) : result A := match o with Some a => Ok a | None => Err e end.

(** src/importers/nationwide_csv.rs:57-92. *)
Definition nw_importer (E : env) (V : csv_env) (pd : date_parser) (ho : hash_order) (o : nw_opts) (input : filespec) : io import :=
  do! text := read_file E input in
  do! rows := io_of (some_or EBadRecord (ce_nationwide V text)) in
  do! (ns, ts) := io_of (nw_csv_import pd ho o rows) in
  io_ret (Import ns ts).
(** src/importers/paypal_csv.rs:43-61. *)
Definition pp_importer (E : env) (V : csv_env) (ho : hash_order) (legacy : bool) (tz : instant → date) (ns : str)
    (input abbrs : filespec) : io import :=
  do! text := read_file E input in
  do! abbr_text := read_file E abbrs in
  do! abbr_rows := io_of (some_or EBadRecord (ce_abbr V abbr_text)) in
  do! db := io_of (tz_from_rows abbr_rows) in
  do! rows := io_of (some_or EBadRecord (ce_paypal V text)) in
  do! ts := io_of (pp_import ho legacy tz db ns rows) in
  io_ret (Import ns ts).
(** src/importers/nationwide_pdf.rs:43-74. *)
Definition pdf_importer (X : pdf_env) (T : ocr_tools) (ho : hash_order) (o : fp_namespace_opt) : io import :=
  do! doc := io_of (ocr_document T ho) in
  do! (ns, ts) := io_of (pdf_import X ho o doc) in
  io_ret (Import ns ts).

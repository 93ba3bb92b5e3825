(** Specification vocabulary for importing PDF statements into files and merging the
    files (C100). *)
From Verif Require Import MergeClaims.
From Verif Require Import Base Types SpecBase CmdModel FingerprintModel NwCsvModel OcrModel OcrClaims PdfModel PdfClaims WindowClaims
  PdfDaysClaims ImporterModel ImporterClaims.
Local Open Scope nat_scope.

(** The programs show [doc]: the images of its pages, at most a hundred, and a
    record for every part, in reading order. *)
Definition shows (T : ocr_tools) (doc : document) : Prop :=
  tmp_works T ∧ well_numbered doc ∧ ∃ pages recs, renders T pages ∧ recognises T recs ∧ length pages ≤ 100 ∧
    Forall2 stands_for (mjoin (imap recs pages)) (nodes doc).
(** A PDF statement of whole days, what the programs do with it, and the file to
    import it to. *)
Record pdf_file := PdfFile { pf_order : hash_order; pf_tools : ocr_tools; pf_out : str; pf_days : list nat }.
(** It is a statement of the account [name] that lists the transactions of the days [pf_days s]. *)
Definition pdf_file_ok (X : pdf_env) (name : str) (parts : list (list group)) (s : pdf_file) : Prop :=
  hash_order_ok (pf_order s) ∧ NoDup (pf_days s) ∧ ∃ doc ls skip gs,
    shows (pf_tools s) doc ∧ account_is doc name ∧ statement_lines X doc ls ∧ grouped ls skip gs ∧
    unplaced_group <$> gs = window parts (pf_days s).
(** The import command run on it. *)
Definition pdf_run (X : pdf_env) (o : fp_namespace_opt) (s : pdf_file) : io import * str :=
  (pdf_importer X (pf_tools s) (pf_order s) o, pf_out s).

(** Running the importers: the pages of a PDF statement (C95), the programs that
    read it (C96), and the option for the namespace (C97). *)
From stdpp Require Import gmap list pretty.
From Verif Require Import MergeClaims.
From Verif Require Import Base Types SpecBase CommentModel MergeModel CmdModel Sha1 FingerprintModel NwCsvModel TzModel PaypalModel
  BaseProofs CommentExamples OcrModel OcrClaims PdfModel PdfExamples CmdClaims CmdExamples ImporterModel ImporterClaims ImporterLaws ImporterExamples.
Local Open Scope nat_scope.

(** C95: up to a hundred pages, the statement read is that of the pages in their
    order, in whatever order the directory lists the images. *)
Theorem C95_pages_in_order_partial T ho pages recs : hash_order_ok ho → tmp_works T → renders T pages → recognises T recs →
  length pages ≤ 100 → ocr_document T ho = from_tsv (Some <$> mjoin (imap recs pages)).
Proof. exact (c95_in_order T ho pages recs). Qed.
Print Assumptions C95_pages_in_order_partial.
(** From a hundred and one pages on, page 101 is read before page 12. *)
Theorem C95_longer_refuted T ho pages recs : hash_order_ok ho → tmp_works T → renders T pages → recognises T recs →
  100 < length pages →
  ∃ order, order ≡ₚ seq 0 (length pages) ∧ (∃ a b c, order = a ++ 100 :: b ++ 11 :: c) ∧
    ocr_document T ho = from_tsv (Some <$> mjoin (imap recs (omap (λ i, pages !! i) order))).
Proof. exact (c95_more T ho pages recs). Qed.
Print Assumptions C95_longer_refuted.
(** The statement of PdfExamples.v; and one of 101 pages with a word each. *)
Example C95_ex : tmp_works (ex_tools 0) ∧ renders (ex_tools 0) (ex_images 2) ∧ recognises (ex_tools 0) (pages_as (ex_doc false)) ∧
  ocr_document (ex_tools 0) default_order = Ok (ex_doc false) ∧ ocr_document (ex_tools 0) reverse_order = Ok (ex_doc false).
Proof.
  split; [apply demo_tmp|]. split; [apply demo_renders|]. split; [apply demo_recognises|]. split; [apply ex_tools_document|].
  vm_compute. reflexivity.
Qed.
Example C95_longer_ex : tmp_works long_tools ∧ renders long_tools (ex_images 101) ∧ recognises long_tools word_records ∧
  rmap texts_of (from_tsv (Some <$> mjoin (imap word_records (ex_images 101)))) = Ok (ex_images 101) ∧
  rmap texts_of (ocr_document long_tools default_order) = Ok ((λ i, [N.of_nat i]) <$> (seq 0 11 ++ [100] ++ seq 11 89)).
Proof.
  split; [apply demo_tmp|]. split; [apply demo_renders|]. split; [apply demo_recognises|]. split; [vm_compute; reflexivity|apply long_order].
Qed.

(** C96: a program that cannot be run, or one that leaves no text, fails the import
    and nothing is written; *)
Theorem C96_cannot_run_partial E X T ho o output substitute make w :
  (ot_convert T ∅ = None ∨ (∀ d, ot_tesseract T d = None) ∨
   (∀ d st d', ot_tesseract T d = Some (st, d') → d' !! s2l "ocr.tsv" = None)) →
  import_cmd E (pdf_importer X T ho o) output substitute make w = ([], Err EIo).
Proof. exact (c96_fails E X T ho o output substitute make w). Qed.
Print Assumptions C96_cannot_run_partial.
(** but the status a program exits with is not looked at, *)
Theorem C96_status_refuted T T' ho : same_but_status T T' → ocr_document T' ho = ocr_document T ho.
Proof. exact (c96_ignored T T' ho). Qed.
Print Assumptions C96_status_refuted.
(** so that a statement whose second page could not be rendered, as the program
    said, is imported without it. *)
Theorem C96_short_statement_refuted : ∃ E X T T0 ho o output w es ns ts ts0 recs g1 g2,
  hash_order_ok ho ∧ tmp_works T ∧ recognises T recs ∧ renders T [g1] ∧ (∀ d, fst <$> ot_convert T d = Some 1%Z) ∧
  tmp_works T0 ∧ recognises T0 recs ∧ renders T0 [g1; g2] ∧
  pdf_importer X T ho o w = ([], Ok (Import ns ts)) ∧ pdf_importer X T0 ho o w = ([], Ok (Import ns (ts ++ ts0))) ∧ ts0 ≠ [] ∧
  import_cmd E (pdf_importer X T ho o) output false false w = (es, Ok tt) ∧ steps w es ≠ w.
Proof. exact c96_witness. Qed.
Print Assumptions C96_short_statement_refuted.
Example C96_ex : import_cmd ex_E (pdf_importer pdf_ex_env
    (OcrTools demo_dir false (ot_convert (ex_tools 0)) false (λ d, Some (0%Z, d)) (λ _, [])) default_order ex_cur)
    (Path (s2l "out")) false false ex_w = ([], Err EIo).
Proof. vm_compute. reflexivity. Qed.

(** C97: what the option for the namespace means, and that everything else is
    refused; "-" names stdin. *)
Theorem C97_namespace E ron s w es o : fp_namespace_of E ron s w = (es, Ok o) ↔
  (s = s2l "account-name" ∧ o = NsAccountName ∧ es = []) ∨
  (s = s2l "generated" ∧ o = NsGenerated ∧ es = []) ∨
  (∃ x, s = s2l "fixed:" ++ x ∧ o = NsFixed x ∧ es = []) ∨
  (∃ p text t, s = s2l "lookup:" ++ p ∧ read_file E (if decide (p = s2l "-") then Stdio else Path p) w = (es, Ok text) ∧
     ron text = Some t ∧ o = NsLookup t).
Proof. exact (c97 E ron s w es o). Qed.
Print Assumptions C97_namespace.
Theorem C97_file s : (filespec_of s = Stdio ↔ s = s2l "-") ∧ ∀ p, filespec_of s = Path p ↔ s = p ∧ s ≠ s2l "-".
Proof. exact (c97_filespec s). Qed.
Print Assumptions C97_file.
Example C97_ex :
  let ron text := if str_eqb text (s2l "J1") then Some {[ s2l "1234" := s2l "cur" ]} else None in
  (fp_namespace_of ex_E ron (s2l "fixed:a b") ex_w).2 = Ok (NsFixed (s2l "a b")) ∧
  (fp_namespace_of ex_E ron (s2l "lookup:a") ex_w).2 = Ok (NsLookup {[ s2l "1234" := s2l "cur" ]}) ∧
  (fp_namespace_of ex_E ron (s2l "lookup:b") ex_w).2 = Err EParse ∧
  (fp_namespace_of ex_E ron (s2l "Generated") ex_w).2 = Err EOther ∧
  filespec_of (s2l "--") = Path (s2l "--").
Proof. split_and!; vm_compute; reflexivity. Qed.

(** The namespace of an import (C97), the name of a source (C26). *)
From stdpp Require Import gmap list pretty.
From Verif Require Import MergeClaims.
From Verif Require Import Base Types SpecBase CommentModel MergeModel CmdModel Sha1 FingerprintModel NwCsvModel TzModel PaypalModel OcrModel PdfModel ImporterModel
  BaseProofs CommentClaims FingerprintClaims ImportClaims NsClaims PdfClaims CmdClaims CmdExamples ImportExamples CommentExamples PdfExamples ImporterExamples TestsImport
  WorkflowExamples WorkCmdExamples NsUseClaims NsUse.
Local Open Scope nat_scope.

(** C97: the namespace an import reports is the one the option asks for, for the account
    named in the file, and all its fingerprints have it. *)
Theorem C97_nationwide_csv E V pd ho o input w es ns ts : hash_order_ok ho →
  nw_importer E V pd ho o input w = (es, Ok (Import ns ts)) →
  ∃ text records name rs, read_file E input w = (es, Ok text) ∧ ce_nationwide V text = Some records ∧ statement_reads pd records name rs ∧
    chosen (nw_fp_ns o) name ns ∧
    (parser_ok pd → fields_ok records → ∀ p f, p ∈ all_posts (as_merged ts) → has_fp p f → in_namespace ns f).
Proof. exact (csv_namespace E V pd ho o input w es ns ts). Qed.
Print Assumptions C97_nationwide_csv.
Theorem C97_nationwide_pdf X T ho o w es ns ts : hash_order_ok ho →
  pdf_importer X T ho o w = (es, Ok (Import ns ts)) →
  ∃ doc name, ocr_document T ho = Ok doc ∧ account_is doc name ∧ chosen o name ns ∧
    ∀ p f, p ∈ all_posts (as_merged ts) → has_fp p f → in_namespace ns f.
Proof. exact (pdf_namespace X T ho o w es ns ts). Qed.
Print Assumptions C97_nationwide_pdf.
Theorem C97_paypal E V ho legacy tz ns input abbrs w es ns' ts : hash_order_ok ho →
  pp_importer E V ho legacy tz ns input abbrs w = (es, Ok (Import ns' ts)) →
  ns' = ns ∧ ∃ text w' es' rows, read_file E input w = (es', Ok text) ∧ w' = steps w es' ∧ ce_paypal V text = Some rows ∧
    (rows_ok rows → ∀ t p f, t ∈ ts → p ∈ t_postings t → has_fp (posting_internal_of p) f → in_namespace ns f).
Proof. exact (paypal_namespace E V ho legacy tz ns input abbrs w es ns' ts). Qed.
Print Assumptions C97_paypal.
Definition ns_of (r : result import) : option (str * nat) :=
  match r with Ok i => Some (im_namespace i, length (im_transactions i)) | _ => None end.
Example C97_used_ex :
  let o n := NwOpts true n in let nw n := ns_of (nw_importer wc_env wc_V ex_dates default_order (o n) (Path (s2l "1.csv")) wc_w).2 in
  let pdf n := ns_of (pdf_importer pdf_ex_env (ex_tools 0) default_order n ex_w).2 in
  nw NsAccountName = Some (s2l "Current", 3) ∧ nw (NsFixed (s2l "cur")) = Some (s2l "cur", 3) ∧
  nw (NsLookup {[ s2l "Current" := s2l "c1" ]}) = Some (s2l "c1", 3) ∧ nw (NsLookup {[ s2l "Savings" := s2l "c1" ]}) = None ∧
  pdf (NsFixed (s2l "cur")) = Some (s2l "cur", 3) ∧ nw NsGenerated = Some (s2l "LVcP3L+Y", 3) ∧ pdf NsGenerated = Some (s2l "99DxFBN4", 3).
Proof. cbv zeta. split_and!; vm_compute; reflexivity. Qed.

(** C26: the sources by name. *)
Theorem C26_named E ho f w es sets : hash_order_ok ho → read_sources E ho f w = (es, Ok sets) →
  ∃ l tps, reads E w f l (steps w es) ∧ mjoin sets ≡ₚ tps ∧ Forall2 (named_source E f) (transaction_postings_of <$> ledger_trns l) tps.
Proof. exact (c26_named E ho f w es sets). Qed.
Print Assumptions C26_named.
Example C26_named_ex :
  (filespec_display ex_E Stdio = s2l "<stdio>") ∧
  match (read_sources ex_E default_order (Path (s2l "a")) ex_w).2 with Ok sets => (length (mjoin sets), source_tag <$> take 1 (mjoin sets)) | _ => (0, []) end =
  (3, [Some (s2l """a""")]).
Proof. split; vm_compute; reflexivity. Qed.

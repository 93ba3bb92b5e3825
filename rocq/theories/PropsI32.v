(** C109: coordinates of recognised text. *)
From Verif Require Import MergeClaims.
From Verif Require Import Base Types SpecBase CommentModel MergeModel FingerprintModel NwCsvModel PaypalModel
  CommentExamples OcrModel PdfModel PdfClaims PdfI32Model PdfI32Claims PdfI32 PdfExamples PdfI32Examples.
Local Open Scope nat_scope.

(** With coordinates up to 715827882 both builds do what arithmetic without bounds does. *)
Theorem C109_records checks E ho o rs : (∀ r, Some r ∈ rs → within 715827882 r) →
  pdf_import_tsv_i32 checks E ho o rs = pdf_import_tsv E ho o rs.
Proof. exact (i32_records checks E ho o rs). Qed.
Print Assumptions C109_records.
Example C109_records_ex : (∀ r, Some r ∈ ex_records_of (high_doc 715827882) → within 715827882 r) ∧
  trns_made (pdf_import_tsv_i32 true pdf_ex_env default_order ex_cur (ex_records_of (high_doc 715827882))) = Ok 2 ∧
  trns_made (pdf_import_tsv_i32 false pdf_ex_env default_order ex_cur (ex_records_of (high_doc 715827882))) = Ok 2.
Proof. exact high_fine. Qed.
(** The sums that are made decide. *)
Theorem C109_fit checks E ho o doc : coordinates_fit doc → pdf_import_i32 checks E ho o doc = pdf_import E ho o doc.
Proof. exact (i32_same checks E ho o doc). Qed.
Print Assumptions C109_fit.
Example C109_fit_ex : coordinates_fit (high_doc 715827882) ∧ coordinates_fit (ex_doc true).
Proof.
  split; [eapply records_fit; [apply high_read; by left|apply high_fine]|].
  apply (records_fit (ex_records_of (ex_doc true))); [vm_compute; reflexivity|apply ex_records_within; vm_compute; reflexivity].
Qed.
(** C80 for both builds. *)
Theorem C80_no_panic_i32 checks E ho o doc : (Z.of_nat (length (doc_lines doc)) < 2147483647)%Z → coordinates_fit doc →
  pdf_import_i32 checks E ho o doc ≠ Panic.
Proof. exact (i32_no_panic checks E ho o doc). Qed.
Print Assumptions C80_no_panic_i32.
(** A build with overflow checks never gives a wrong result ... *)
Theorem C109_checked E ho o doc : pdf_import_i32 true E ho o doc = Panic ∨ pdf_import_i32 true E ho o doc = pdf_import E ho o doc.
Proof. exact (i32_checked E ho o doc). Qed.
Print Assumptions C109_checked.
(** ... and one without never stops for coordinates. *)
Theorem C109_unchecked E ho o doc : (Z.of_nat (length (doc_lines doc)) < 2147483647)%Z → pdf_import_i32 false E ho o doc ≠ Panic.
Proof. exact (i32_unchecked E ho o doc). Qed.
Print Assumptions C109_unchecked.
Example C109_unchecked_ex : length (doc_lines (high_doc 715827883)) = 5.
Proof. vm_compute. reflexivity. Qed.
(** The bound is the largest one: one above it the build with checks panics, and
    the one without loses a payment and says nothing. *)
Theorem C109_bound_is_sharp : ∃ rs, (∀ r, Some r ∈ rs → within 715827883 r) ∧
  trns_made (pdf_import_tsv pdf_ex_env default_order ex_cur rs) = Ok 2 ∧
  pdf_import_tsv_i32 true pdf_ex_env default_order ex_cur rs = Panic ∧
  trns_made (pdf_import_tsv_i32 false pdf_ex_env default_order ex_cur rs) = Ok 1.
Proof. exact high_over. Qed.
Print Assumptions C109_bound_is_sharp.

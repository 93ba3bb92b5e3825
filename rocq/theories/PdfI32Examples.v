(** Statements with large coordinates. *)
From Verif Require Import MergeClaims.
From Verif Require Import Base Types SpecBase CommentModel MergeModel Sha1 FingerprintModel NwCsvModel PaypalModel
  CommentClaims FingerprintClaims ImportClaims BaseProofs CommentExamples OcrModel OcrClaims OcrProofs PdfModel PdfClaims PdfLaws PdfLaws2
  PdfI32Model PdfI32Claims PdfI32 PdfExamples.
From Coq Require Import Lia.
Local Open Scope nat_scope.

Local Open Scope string_scope.
(** Two rows [h] below the top of the page, [h] high. *)
Definition high_line (h : Z) (num : Z) (ws : list (Z * string)) : line :=
  Line num h h (imap (λ i p, Word (Z.of_nat i + 1) p.1 30 (s2l p.2)) ws).
Definition high_table (h : Z) : list line :=
  [head_line 1 40; ex_line 2 50 (row_words ["2021"] [] [] [] []);
   high_line h 3 (row_words ["01"; "Jan"] ["Employer"] [] ["1,250.00"] []); high_line h 4 (row_words ["02"; "Jan"] ["Shop"] ["10.00"] [] [])].
Definition high_doc (h : Z) : document := [ex_page 1 [ex_account; high_table h]].
Local Close Scope string_scope.

Lemma ex_records_within d : forallb (λ o, match o with Some r => (0 <=? or_left r) && (or_left r <=? 715827882) && (0 <=? or_top r) && (or_top r <=? 715827882) &&
    (0 <=? or_width r) && (or_width r <=? 715827882) && (0 <=? or_height r) && (or_height r <=? 715827882) | None => true end)%Z (ex_records_of d) = true →
  ∀ r, Some r ∈ ex_records_of d → within 715827882 r.
Proof.
  intros H r Hr. rewrite forallb_forall in H. apply elem_of_list_In in Hr. specialize (H _ Hr). cbn beta iota in H.
  rewrite !andb_true_iff, !Z.leb_le in H. unfold within. tauto.
Qed.
Lemma high_read h : h = 715827882%Z ∨ h = 715827883%Z → from_tsv (ex_records_of (high_doc h)) = Ok (high_doc h).
Proof. intros [->| ->]; vm_compute; reflexivity. Qed.
Definition trns_made (r : result (str * list transaction)) : result nat := rmap (λ x, length x.2) r.
(** At the bound everything is read ... *)
Lemma high_fine : (∀ r, Some r ∈ ex_records_of (high_doc 715827882) → within 715827882 r) ∧
  trns_made (pdf_import_tsv_i32 true pdf_ex_env default_order ex_cur (ex_records_of (high_doc 715827882))) = Ok 2 ∧
  trns_made (pdf_import_tsv_i32 false pdf_ex_env default_order ex_cur (ex_records_of (high_doc 715827882))) = Ok 2.
Proof. split; [apply ex_records_within; vm_compute; reflexivity|]. split; vm_compute; reflexivity. Qed.
(** ... and one above it the build with checks panics and the one without loses the second payment. *)
Lemma high_over : ∃ rs, (∀ r, Some r ∈ rs → within 715827883 r) ∧ trns_made (pdf_import_tsv pdf_ex_env default_order ex_cur rs) = Ok 2 ∧
  pdf_import_tsv_i32 true pdf_ex_env default_order ex_cur rs = Panic ∧
  trns_made (pdf_import_tsv_i32 false pdf_ex_env default_order ex_cur rs) = Ok 1.
Proof.
  exists (ex_records_of (high_doc 715827883)). split.
  - assert (forallb (λ o, match o with Some r => (0 <=? or_left r) && (or_left r <=? 715827883) && (0 <=? or_top r) && (or_top r <=? 715827883) &&
      (0 <=? or_width r) && (or_width r <=? 715827883) && (0 <=? or_height r) && (or_height r <=? 715827883) | None => true end)%Z
      (ex_records_of (high_doc 715827883)) = true) as H by (vm_compute; reflexivity).
    rewrite forallb_forall in H. intros r Hr%elem_of_list_In. specialize (H _ Hr). cbn beta iota in H.
    rewrite !andb_true_iff, !Z.leb_le in H. unfold within. tauto.
  - split_and!; vm_compute; reflexivity.
Qed.

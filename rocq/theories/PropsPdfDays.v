(** Overlapping PDF statements (C114). *)
From Verif Require Import MergeClaims.
From Verif Require Import Base Types SpecBase CommentModel MergeModel MergeSpec FingerprintModel NwCsvModel PaypalModel CommentClaims FingerprintClaims
  ImportClaims OcrModel PdfModel PdfClaims PdfExamples WindowClaims PdfDaysClaims PdfDays PdfDaysExamples.
Local Open Scope nat_scope.

(** C114 *)
Theorem C114_overlapping_pdf E o name ds parts ws tss seen ts hos :
  env_ok E → whole_days ds parts → Forall2 (pdf_statement E o name parts) ws tss →
  covers ws seen → pdf_statement E o name parts seen ts → (∀ t, t ∈ ts → str_ok (t_description t)) →
  ¬ pdf_collides ts (sequence None 0 (window parts seen)) →
  length hos = length ws → Forall hash_order_ok hos →
  ∃ m, clean_run merger_new (zip hos (as_merged <$> tss)) m ∧
    ∀ ho, hash_order_ok ho → build ho m = Ok (stable_sort (by_key tp_date) (as_merged ts)).
Proof. exact (pdf_overlaps E o name ds parts ws tss seen ts hos). Qed.
Print Assumptions C114_overlapping_pdf.
(** Three days; the second statement has the second and the third day, with a page
    break between two transactions of the second. *)
Example C114_ex : env_ok od_env ∧ whole_days od_dates od_parts ∧
  Forall2 (pdf_statement od_env ex_cur (s2l "12-34-56 12345678") od_parts) [[0; 1]; [1; 2]] [od_ts od_doc1; od_ts od_doc2] ∧
  covers [[0; 1]; [1; 2]] [0; 1; 2] ∧
  pdf_statement od_env ex_cur (s2l "12-34-56 12345678") od_parts [0; 1; 2] (od_ts od_doc) ∧
  (∀ t, t ∈ od_ts od_doc → str_ok (t_description t)) ∧
  ¬ pdf_collides (od_ts od_doc) (sequence None 0 (window od_parts [0; 1; 2])) ∧
  length <$> [od_ts od_doc1; od_ts od_doc2; od_ts od_doc] = [3; 4; 5].
Proof.
  split_and!; [exact od_env_ok|exact od_days|exact (List.Forall2_cons _ _ od_1 (List.Forall2_cons _ _ od_2 (List.Forall2_nil _)))
    |exact od_covers|exact od_all|exact od_texts|exact od_no_collision|vm_compute; reflexivity].
Qed.

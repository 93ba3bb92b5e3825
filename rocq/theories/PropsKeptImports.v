(** The stream of C135 for downloaded statements: imports of statements made of whole
    days, overlapping in any way, are made of the days of one stream. *)
From Verif Require Import MergeClaims.
From Verif Require Import Base Types SpecBase BaseProofs CommentModel MergeModel FingerprintModel NwCsvModel TzModel PaypalModel
  CommentClaims FingerprintClaims ImportClaims OcrModel PdfModel PdfClaims PdfDaysClaims
  EditClaims WindowClaims StatementClaims KeptClaims KeptImports ImportExamples TestsImport PdfExamples WorkflowExamples PdfDaysExamples.
Local Open Scope nat_scope.

(** C135 *)
Theorem C135_nationwide pd o name rows ws tss seen ts :
  parser_ok pd → days rec_date rows → Forall2 (nw_statement pd o name rows) ws tss →
  covers ws seen → nw_statement pd o name rows seen ts → ¬ statement_collides (window rows seen) →
  ∃ stream, journal_ok (concat stream) ∧ days tp_date stream ∧ as_merged <$> tss = window stream <$> ws ∧ Forall NoDup ws ∧
    as_merged ts = window stream seen.
Proof. exact (kept_nationwide pd o name rows ws tss seen ts). Qed.
Print Assumptions C135_nationwide.
Theorem C135_paypal tz db ns groups ws tss seen ts :
  days (λ g, tz g.1) groups → Forall2 (pp_statement tz db ns groups) ws tss →
  covers ws seen → pp_statement tz db ns groups seen ts → NoDup (window groups seen).*1 → ¬ groups_collide (window groups seen) →
  ∃ stream, journal_ok (concat stream) ∧ days tp_date stream ∧ as_merged <$> tss = window stream <$> ws ∧ Forall NoDup ws ∧
    as_merged ts = window stream seen.
Proof. exact (kept_paypal tz db ns groups ws tss seen ts). Qed.
Print Assumptions C135_paypal.
Theorem C135_pdf E o name ds parts ws tss seen ts :
  env_ok E → whole_days ds parts → Forall2 (pdf_statement E o name parts) ws tss →
  covers ws seen → pdf_statement E o name parts seen ts → (∀ t, t ∈ ts → str_ok (t_description t)) →
  ¬ pdf_collides ts (sequence None 0 (window parts seen)) →
  ∃ stream, journal_ok (concat stream) ∧ days tp_date stream ∧ as_merged <$> tss = window stream <$> ws ∧ Forall NoDup ws ∧
    as_merged ts = window stream seen.
Proof. exact (kept_pdf E o name ds parts ws tss seen ts). Qed.
Print Assumptions C135_pdf.
(** The statements of C87, C88 and C114. *)
Example C135_imports_ex :
  (∃ stream, journal_ok (concat stream) ∧ as_merged <$> [wd_import [0; 1]; wd_import [2; 1]] = window stream <$> [[0; 1]; [2; 1]] ∧
     as_merged (wd_import [0; 1; 2]) = window stream [0; 1; 2]) ∧
  (∃ stream, journal_ok (concat stream) ∧ as_merged <$> [pd_import [0]; pd_import [1; 0]] = window stream <$> [[0]; [1; 0]] ∧
     as_merged (pd_import [0; 1]) = window stream [0; 1]) ∧
  (∃ stream, journal_ok (concat stream) ∧ as_merged <$> [od_ts od_doc1; od_ts od_doc2] = window stream <$> [[0; 1]; [1; 2]] ∧
     as_merged (od_ts od_doc) = window stream [0; 1; 2]).
Proof.
  split_and!.
  - destruct (C135_nationwide ex_dates ex_opts (s2l "Current") wd_days [[0; 1]; [2; 1]] [wd_import [0; 1]; wd_import [2; 1]] [0; 1; 2] (wd_import [0; 1; 2]))
      as (s & H1 & _ & H2 & _ & H3); [exact ex_dates_ok|exact wd_days_ok|exact (List.Forall2_cons _ _ wd_01 (List.Forall2_cons _ _ wd_12 (List.Forall2_nil _)))
      |exact wd_covers|exact wd_012|exact wd_no_collision|]. exact (ex_intro _ s (conj H1 (conj H2 H3))).
  - destruct (C135_paypal test_tz ex_db (s2l "paypal") pd_groups [[0]; [1; 0]] [pd_import [0]; pd_import [1; 0]] [0; 1] (pd_import [0; 1]))
      as (s & H1 & _ & H2 & _ & H3); [exact pd_days| |apply covers_check; by_compute|apply pd_one; by_compute|apply pd_no_collision..|].
    + refine (List.Forall2_cons _ _ _ (List.Forall2_cons _ _ _ (List.Forall2_nil _))); apply pd_one; by_compute.
    + exact (ex_intro _ s (conj H1 (conj H2 H3))).
  - destruct (C135_pdf od_env ex_cur (s2l "12-34-56 12345678") od_dates od_parts [[0; 1]; [1; 2]] [od_ts od_doc1; od_ts od_doc2] [0; 1; 2] (od_ts od_doc))
      as (s & H1 & _ & H2 & _ & H3); [exact od_env_ok|exact od_days|exact (List.Forall2_cons _ _ od_1 (List.Forall2_cons _ _ od_2 (List.Forall2_nil _)))
      |exact od_covers|exact od_all|exact od_texts|exact od_no_collision|]. exact (ex_intro _ s (conj H1 (conj H2 H3))).
Qed.

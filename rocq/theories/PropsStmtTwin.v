(** The same statement imported as CSV and as PDF (C113). *)
From Verif Require Import MergeClaims.
From Verif Require Import Base Types SpecBase CommentModel MergeModel MergeSpec NwCsvModel PaypalModel CommentClaims FingerprintClaims
  ImportClaims ImportExamples OcrModel PdfModel PdfClaims PdfExamples WorkflowExamples PiecesClaims TwinClaims StmtTwinClaims StmtTwin StmtTwinExamples.
Local Open Scope nat_scope.

(** C113: a PDF statement merged into the journal of the CSV statement of the same
    account: nothing is handed back and each payment is in the journal once; *)
Theorem C113_csv_then_pdf pd ho o records ns ts name rs E ho' o' doc ns' ts' ls skip gs w new ho1 ho2 :
  hash_order_ok ho → hash_order_ok ho' → hash_order_ok ho1 → hash_order_ok ho2 →
  parser_ok pd → fields_ok records → nw_csv_import pd ho o records = Ok (ns, ts) →
  statement_reads pd records name rs → contiguous (rec_date <$> rs) → ¬ statement_collides rs →
  env_ok E → (∀ t, t ∈ ts' → str_ok (t_description t)) → pdf_import E ho' o' doc = Ok (ns', ts') →
  statement_lines E doc ls → grouped ls skip gs → together (tl_date <$> (gs ≫= group_lines)) →
  ¬ pdf_collides ts' (sequence None 0 gs) →
  nw_legacy o = false ∨ ns ≠ ns' →
  w.*1 = ts → ts' ≡ₚ omap snd w ++ new → statements_agree w new →
  ∃ m1 m, merge ho1 merger_new (as_merged ts) = (m1, Ok []) ∧ merge ho2 m1 (as_merged ts') = (m, Ok []) ∧
    ∀ hb out, hash_order_ok hb → build hb m = Ok out →
      same_up_to_order (stable_sort (by_key tp_date) ((payment <$> w) ++ as_merged new)) out.
Proof. exact (csv_then_pdf pd ho o records ns ts name rs E ho' o' doc ns' ts' ls skip gs w new ho1 ho2). Qed.
Print Assumptions C113_csv_then_pdf.
(** so it is the other way round. *)
Theorem C113_pdf_then_csv pd ho o records ns ts name rs E ho' o' doc ns' ts' ls skip gs w new ho1 ho2 :
  hash_order_ok ho → hash_order_ok ho' → hash_order_ok ho1 → hash_order_ok ho2 →
  parser_ok pd → fields_ok records → nw_csv_import pd ho o records = Ok (ns, ts) →
  statement_reads pd records name rs → contiguous (rec_date <$> rs) → ¬ statement_collides rs →
  env_ok E → (∀ t, t ∈ ts' → str_ok (t_description t)) → pdf_import E ho' o' doc = Ok (ns', ts') →
  statement_lines E doc ls → grouped ls skip gs → together (tl_date <$> (gs ≫= group_lines)) →
  ¬ pdf_collides ts' (sequence None 0 gs) →
  nw_legacy o = false ∨ ns ≠ ns' →
  w.*1 = ts' → ts ≡ₚ omap snd w ++ new → statements_agree w new →
  ∃ m1 m, merge ho1 merger_new (as_merged ts') = (m1, Ok []) ∧ merge ho2 m1 (as_merged ts) = (m, Ok []) ∧
    ∀ hb out, hash_order_ok hb → build hb m = Ok out →
      same_up_to_order (stable_sort (by_key tp_date) ((payment <$> w) ++ as_merged new)) out.
Proof. exact (pdf_then_csv pd ho o records ns ts name rs E ho' o' doc ns' ts' ls skip gs w new ho1 ho2). Qed.
Print Assumptions C113_pdf_then_csv.
(** A payment in both has the header of the first statement and the fingerprints of
    both. *)
Theorem C113_payment t t' p q b :
  tp_posts (transaction_postings_of t) !! b = Some p → tp_posts (transaction_postings_of t') !! b = Some q →
  ∃ r, tp_posts (payment (t, Some t')) !! b = Some r ∧ (∀ f, has_fp r f ↔ has_fp p f ∨ has_fp q f) ∧
    tp_trn (payment (t, Some t')) = tp_trn (transaction_postings_of t).
Proof. exact (payment_fps t t' p q b). Qed.
Print Assumptions C113_payment.
(** A CSV statement with three payments, a PDF statement with two of them and
    another one. *)
Example C113_ex : parser_ok ex_dates ∧ fields_ok (ex_head ++ st_rows) ∧
  nw_csv_import ex_dates default_order ex_opts (ex_head ++ st_rows) = Ok (s2l "cur", st_ts) ∧
  statement_reads ex_dates (ex_head ++ st_rows) (s2l "Current") st_records ∧
  contiguous (rec_date <$> st_records) ∧ ¬ statement_collides st_records ∧
  env_ok st_env ∧ (∀ t, t ∈ st_ts' → str_ok (t_description t)) ∧
  pdf_import st_env default_order ex_cur st_doc = Ok (s2l "cur", st_ts') ∧
  statement_lines st_env st_doc st_lines ∧ grouped st_lines (group_up st_lines).1 st_groups ∧
  together (tl_date <$> (st_groups ≫= group_lines)) ∧ ¬ pdf_collides st_ts' (sequence None 0 st_groups) ∧
  nw_legacy ex_opts = false ∧
  (st_w.*1 = st_ts ∧ st_ts' ≡ₚ omap snd st_w ++ st_new) ∧ statements_agree st_w st_new ∧
  (st_w2.*1 = st_ts' ∧ st_ts ≡ₚ omap snd st_w2 ++ st_new2) ∧ statements_agree st_w2 st_new2 ∧
  (λ tp, (t_description (ti_raw (tp_trn tp)), length ∘ fps_of <$> tp_posts tp)) <$> (payment <$> st_w) =
    [(s2l "COFFEE", [2; 2]); (s2l "BUN", [1; 1]); (s2l "TEA", [2; 2])].
Proof.
  exact (conj ex_dates_ok (conj st_fields (conj (proj1 st_csv) (conj st_reads (conj st_contiguous (conj st_no_collision
    (conj st_env_ok (conj st_texts (conj (proj1 st_pdf) (conj st_lines_ok (conj (group_up_spec st_lines) (conj st_together
    (conj st_pdf_no_collision (conj eq_refl (conj st_w_ok (conj st_agree (conj st_w2_ok (conj st_agree2 st_result)))))))))))))))))).
Qed.

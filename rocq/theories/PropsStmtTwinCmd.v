(** A CSV and a PDF statement imported to files and the files merged (C113). *)
From Verif Require Import MergeClaims.
From Verif Require Import Base Types SpecBase CommentModel MergeModel MergeSpec CmdModel CmdClaims NwCsvModel PaypalModel OcrModel PdfModel CommentClaims FingerprintClaims
  ImportClaims PdfClaims PiecesClaims TwinClaims StmtTwinClaims ImporterModel WorkCmdClaims PdfWorkClaims StmtTwinCmdClaims StmtTwinCmd
  ImportExamples PdfExamples WorkflowExamples StmtTwinExamples PdfWorkExamples StmtTwinCmdExamples.
Local Open Scope nat_scope.

(** C113: the CSV statement imported to file [a], the PDF statement to file [b], and
    the files merged: the command succeeds, and the journal it writes has each payment
    once and all that is on either statement; no other file changes. *)
Theorem C113_command E V pd ho o csv records a ts X T ho' o' doc b ts' wl new w w' hm um output :
  hash_order_ok ho → hash_order_ok ho' → hash_order_ok hm →
  csv_statement V pd w csv records → pdf_shown X T doc ts' →
  (∀ ns ns', nw_csv_import pd ho o records = Ok (ns, ts) → pdf_import X ho' o' doc = Ok (ns', ts') → nw_legacy o = false ∨ ns ≠ ns') →
  imports E w [(nw_importer E V pd ho o (Path csv), a); (pdf_importer X T ho' o', b)] [ts; ts'] w' →
  a ≠ b → csv ≠ b → f_read E (Path csv) = false → f_read E (Path a) = false → f_read E (Path b) = false → prints_back E ts → prints_back E ts' →
  (∀ f, um = Some f → writable E f) → writable E output →
  wl.*1 = ts → ts' ≡ₚ omap snd wl ++ new → statements_agree wl new →
  ∃ es out, merge_cmd E hm [Path a; Path b] um output w' = (es, Ok tt) ∧
    same_up_to_order (stable_sort (by_key tp_date) ((payment <$> wl) ++ as_merged new)) out ∧
    holds w' (steps w' es) output (e_print E (into_ledger hm out)) ∧ ∀ p, Path p ≠ output → same_file w' (steps w' es) p.
Proof. exact (csv_pdf_command E V pd ho o csv records a ts X T ho' o' doc b ts' wl new w w' hm um output). Qed.
Print Assumptions C113_command.
(** The other way round. *)
Theorem C113_command_reversed E V pd ho o csv records a ts X T ho' o' doc b ts' wl new w w' hm um output :
  hash_order_ok ho → hash_order_ok ho' → hash_order_ok hm →
  csv_statement V pd w csv records → pdf_shown X T doc ts' →
  (∀ ns ns', nw_csv_import pd ho o records = Ok (ns, ts) → pdf_import X ho' o' doc = Ok (ns', ts') → nw_legacy o = false ∨ ns ≠ ns') →
  imports E w [(pdf_importer X T ho' o', b); (nw_importer E V pd ho o (Path csv), a)] [ts'; ts] w' →
  a ≠ b → csv ≠ b → f_read E (Path csv) = false → f_read E (Path a) = false → f_read E (Path b) = false → prints_back E ts → prints_back E ts' →
  (∀ f, um = Some f → writable E f) → writable E output →
  wl.*1 = ts' → ts ≡ₚ omap snd wl ++ new → statements_agree wl new →
  ∃ es out, merge_cmd E hm [Path b; Path a] um output w' = (es, Ok tt) ∧
    same_up_to_order (stable_sort (by_key tp_date) ((payment <$> wl) ++ as_merged new)) out ∧
    holds w' (steps w' es) output (e_print E (into_ledger hm out)) ∧ ∀ p, Path p ≠ output → same_file w' (steps w' es) p.
Proof. exact (pdf_csv_command E V pd ho o csv records a ts X T ho' o' doc b ts' wl new w w' hm um output). Qed.
Print Assumptions C113_command_reversed.
(** The statements of C113_ex in files, in both orders. *)
Example C113_command_ex :
  csv_statement tc_V ex_dates tc_w (s2l "1.csv") (ex_head ++ st_rows) ∧ pdf_shown st_env (pw_tools st_doc) st_doc st_ts' ∧ nw_legacy ex_opts = false ∧
  imports tc_env tc_w [tc_nw; tc_pdf] [st_ts; st_ts'] (tc_run (tc_run tc_w tc_nw) tc_pdf) ∧
  imports tc_env tc_w [tc_pdf; tc_nw] [st_ts'; st_ts] (tc_run (tc_run tc_w tc_pdf) tc_nw) ∧
  prints_back tc_env st_ts ∧ prints_back tc_env st_ts' ∧
  (st_w.*1 = st_ts ∧ st_ts' ≡ₚ omap snd st_w ++ st_new) ∧ statements_agree st_w st_new ∧
  (st_w2.*1 = st_ts' ∧ st_ts ≡ₚ omap snd st_w2 ++ st_new2) ∧ statements_agree st_w2 st_new2.
Proof.
  exact (conj tc_csv (conj tc_shown (conj eq_refl (conj tc_imports (conj tc_imports2 (conj (proj1 tc_prints) (conj (proj2 tc_prints)
    (conj st_w_ok (conj st_agree (conj st_w2_ok st_agree2)))))))))).
Qed.

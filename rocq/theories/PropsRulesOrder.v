(** C123: rules applied before or after merging.  The vocabulary is in
    RulesOrderClaims.v, PipeClaims.v and where C108 has it. *)
From Verif Require Import MergeClaims.
From Verif Require Import Base Types SpecBase BaseProofs CommentModel MergeModel MergeSpec CmdModel CmdClaims FingerprintModel NwCsvModel TzModel PaypalModel
  CommentClaims FingerprintClaims ImportClaims EditClaims OcrModel OcrClaims PdfModel PdfClaims WindowClaims StatementClaims PdfDaysClaims
  CommentExamples MergeExamples ImportExamples TestsImport WorkflowExamples CmdExamples RulesModel RulesClaims RulesExamples
  HeaderClaims ImporterModel ImporterClaims WorkCmdClaims WorkCmdExamples PdfWorkClaims PipeClaims Pipe PipeExamples RulesOrderClaims RulesOrder RulesOrderExamples.
Local Open Scope nat_scope.

(** C123 *)
(** Statements of whole days of one account that may overlap: merging them and
    applying the rules to the result, or applying the rules to each and merging. *)
Theorem C123_nationwide pd o name rows ws tss seen ts hos X T Js :
  parser_ok pd → days rec_date rows → Forall2 (nw_statement pd o name rows) ws tss →
  covers ws seen → nw_statement pd o name rows seen ts → ¬ statement_collides (window rows seen) →
  is_Some (T !! s2l "start") → leaves_fingerprints T → Forall2 (ruled X T) (as_merged <$> tss) Js →
  length hos = length ws → Forall hash_order_ok hos → either_way X T hos (as_merged <$> tss) Js.
Proof. exact (c123_nationwide pd o name rows ws tss seen ts hos X T Js). Qed.
Print Assumptions C123_nationwide.
Theorem C123_paypal tz db ns groups ws tss seen ts hos X T Js :
  days (λ g, tz g.1) groups → Forall2 (pp_statement tz db ns groups) ws tss →
  covers ws seen → pp_statement tz db ns groups seen ts → NoDup (window groups seen).*1 → ¬ groups_collide (window groups seen) →
  is_Some (T !! s2l "start") → leaves_fingerprints T → Forall2 (ruled X T) (as_merged <$> tss) Js →
  length hos = length ws → Forall hash_order_ok hos → either_way X T hos (as_merged <$> tss) Js.
Proof. exact (c123_paypal tz db ns groups ws tss seen ts hos X T Js). Qed.
Print Assumptions C123_paypal.
Theorem C123_pdf E o name ds parts ws tss seen ts hos X T Js :
  env_ok E → whole_days ds parts → Forall2 (pdf_statement E o name parts) ws tss →
  covers ws seen → pdf_statement E o name parts seen ts → (∀ t, t ∈ ts → str_ok (t_description t)) →
  ¬ pdf_collides ts (sequence None 0 (window parts seen)) →
  is_Some (T !! s2l "start") → leaves_fingerprints T → Forall2 (ruled X T) (as_merged <$> tss) Js →
  length hos = length ws → Forall hash_order_ok hos → either_way X T hos (as_merged <$> tss) Js.
Proof. exact (c123_pdf E o name ds parts ws tss seen ts hos X T Js). Qed.
Print Assumptions C123_pdf.
(** By the commands, with files in between. *)
Theorem C123_nationwide_command E V pd o name rows ss w tss w' seen ts X F paths rules T rs w2 ho um merged final :
  parser_ok pd → days rec_date rows → hash_order_ok ho →
  imports E w (nw_run E V pd o <$> ss) tss w' → Forall (nw_file V pd name rows w) ss →
  (∀ s, s ∈ ss → f_read E (Path (sf_csv s)) = false ∧ f_read E (Path (sf_out s)) = false) →
  NoDup (sf_out <$> ss) → (∀ s s', s ∈ ss → s' ∈ ss → sf_csv s ≠ sf_out s') → Forall (prints_back E) tss →
  covers (sf_days <$> ss) seen → nw_statement pd o name rows seen ts → ¬ statement_collides (window rows seen) →
  one_file F → all_paths F paths → rules_loaded F rules T → leaves_fingerprints T →
  rulings E X F rules w' rs w2 → rr_in <$> rs = sf_out <$> ss → NoDup (rr_out <$> rs) →
  (∀ i k r r', rs !! i = Some r → rs !! k = Some r' → i < k → rr_out r ≠ rr_in r') →
  (∀ r, r ∈ rs → f_read E (Path (rr_out r)) = false) →
  (∀ ts J, ts ∈ tss → ruled X T (as_merged ts) J → reads_back E J) →
  f_read E (Path merged) = false → reads_back E (stable_sort (by_key tp_date) (as_merged ts)) →
  (∀ f, um = Some f → writable E f) → writable E (Path merged) → writable E (Path final) →
  same_text E X F rules ho um w' (sf_out <$> ss) merged w2 (rr_out <$> rs) final.
Proof. exact (c123_nationwide_cmd E V pd o name rows ss w tss w' seen ts X F paths rules T rs w2 ho um merged final). Qed.
Print Assumptions C123_nationwide_command.
Theorem C123_paypal_command E V tz db ns abbrs groups ss w tss w' seen ts X F paths rules T rs w2 ho um merged final :
  days (λ g, tz g.1) groups → hash_order_ok ho →
  imports E w (pp_run E V tz ns abbrs <$> ss) tss w' → Forall (pp_file V db groups w) ss →
  abbr_file V db w abbrs → f_read E (Path abbrs) = false → (∀ s, s ∈ ss → abbrs ≠ sf_out s) →
  (∀ s, s ∈ ss → f_read E (Path (sf_csv s)) = false ∧ f_read E (Path (sf_out s)) = false) →
  NoDup (sf_out <$> ss) → (∀ s s', s ∈ ss → s' ∈ ss → sf_csv s ≠ sf_out s') → Forall (prints_back E) tss →
  covers (sf_days <$> ss) seen → pp_statement tz db ns groups seen ts → NoDup (window groups seen).*1 → ¬ groups_collide (window groups seen) →
  one_file F → all_paths F paths → rules_loaded F rules T → leaves_fingerprints T →
  rulings E X F rules w' rs w2 → rr_in <$> rs = sf_out <$> ss → NoDup (rr_out <$> rs) →
  (∀ i k r r', rs !! i = Some r → rs !! k = Some r' → i < k → rr_out r ≠ rr_in r') →
  (∀ r, r ∈ rs → f_read E (Path (rr_out r)) = false) →
  (∀ ts J, ts ∈ tss → ruled X T (as_merged ts) J → reads_back E J) →
  f_read E (Path merged) = false → reads_back E (stable_sort (by_key tp_date) (as_merged ts)) →
  (∀ f, um = Some f → writable E f) → writable E (Path merged) → writable E (Path final) →
  same_text E X F rules ho um w' (sf_out <$> ss) merged w2 (rr_out <$> rs) final.
Proof. exact (c123_paypal_cmd E V tz db ns abbrs groups ss w tss w' seen ts X F paths rules T rs w2 ho um merged final). Qed.
Print Assumptions C123_paypal_command.
Theorem C123_pdf_command E P o name ds parts ss w tss w' seen ts X F paths rules T rs w2 ho um merged final :
  env_ok P → whole_days ds parts → hash_order_ok ho →
  imports E w (pdf_run P o <$> ss) tss w' → Forall (pdf_file_ok P name parts) ss →
  (∀ s, s ∈ ss → f_read E (Path (pf_out s)) = false) → NoDup (pf_out <$> ss) → Forall (prints_back E) tss →
  covers (pf_days <$> ss) seen → pdf_statement P o name parts seen ts → (∀ t, t ∈ ts → str_ok (t_description t)) →
  ¬ pdf_collides ts (sequence None 0 (window parts seen)) →
  one_file F → all_paths F paths → rules_loaded F rules T → leaves_fingerprints T →
  rulings E X F rules w' rs w2 → rr_in <$> rs = pf_out <$> ss → NoDup (rr_out <$> rs) →
  (∀ i k r r', rs !! i = Some r → rs !! k = Some r' → i < k → rr_out r ≠ rr_in r') →
  (∀ r, r ∈ rs → f_read E (Path (rr_out r)) = false) →
  (∀ ts J, ts ∈ tss → ruled X T (as_merged ts) J → reads_back E J) →
  f_read E (Path merged) = false → reads_back E (stable_sort (by_key tp_date) (as_merged ts)) →
  (∀ f, um = Some f → writable E f) → writable E (Path merged) → writable E (Path final) →
  same_text E X F rules ho um w' (pf_out <$> ss) merged w2 (rr_out <$> rs) final.
Proof. exact (c123_pdf_cmd E P o name ds parts ss w tss w' seen ts X F paths rules T rs w2 ho um merged final). Qed.
Print Assumptions C123_pdf_command.
(** Not for any journals: a tag that a set merged later adds to a posting can decide
    a rule. *)
Theorem C123_order_matters X : ∃ T raw Js hos, is_Some (T !! s2l "start") ∧ leaves_fingerprints T ∧
  Forall2 (ruled X T) raw Js ∧ Forall hash_order_ok hos ∧ length hos = length raw ∧
  (∃ m, clean_run merger_new (zip hos raw) m) ∧ (∃ m, clean_run merger_new (zip hos Js) m) ∧ ¬ either_way X T hos raw Js.
Proof. exact (c123_matters X). Qed.
Print Assumptions C123_order_matters.
(** The statements and rules of C108_ex. *)
Example C123_ex :
  imports pi_env wc_w (nw_run pi_env wc_V ex_dates ex_opts <$> wc_ss) wc_nw pi_w1 ∧ all_paths rx_F rx_paths ∧
  rulings pi_env rx_X rx_F (s2l "/r/main") pi_w1 pi_runs pi_w2 ∧ f_read pi_env (Path (s2l "m")) = false ∧
  reads_back pi_env (stable_sort (by_key tp_date) (as_merged (wd_import [0; 1; 2]))) ∧
  let run := merge_cmd pi_env default_order (Path <$> (sf_out <$> wc_ss)) None (Path (s2l "m")) pi_w1 in
  let run2 := rules_cmd pi_env rx_X rx_F default_order 7 (s2l "/r/main") (Path (s2l "m")) (Path (s2l "out")) (steps pi_w1 run.1) in
  (w_files (steps pi_w1 run.1) !! s2l "m", w_files (steps (steps pi_w1 run.1) run2.1) !! s2l "out") = (Some (s2l "AB"), Some (s2l "RAB")).
Proof.
  split; [exact pi_imports|]. split; [exact rx_all|]. split; [exact pi_rulings|]. split; [reflexivity|]. split; [exact ro_merged_back|].
  cbv zeta. vm_compute. reflexivity.
Qed.

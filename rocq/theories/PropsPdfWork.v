(** Overlapping PDF statements imported to files, and the files merged (C100), with
    rules applied in between (C108). *)
From Verif Require Import MergeClaims.
From Verif Require Import Base Types SpecBase CommentModel MergeModel CmdModel FingerprintModel NwCsvModel PaypalModel
  CommentClaims CmdClaims FingerprintClaims ImportClaims EditClaims OcrModel PdfModel PdfClaims WindowClaims StatementClaims PdfDaysClaims WorkCmdClaims PdfWorkClaims
  PdfExamples CommentExamples PdfDaysExamples PdfWork PdfWorkExamples
  MergeSpec RulesModel RulesClaims HeaderClaims PipeClaims RulesExamples PipeExamples PipePdf PipePdfExamples.
Local Open Scope nat_scope.

(** C100: PDF statements of one account, imported to a file each, and the files merged:
    the journal written is that of the one statement with all the days. *)
Theorem C100_pdf E X o name ds parts ss w tss w' seen ts ho um output :
  env_ok X → whole_days ds parts → hash_order_ok ho →
  imports E w (pdf_run X o <$> ss) tss w' → Forall (pdf_file_ok X name parts) ss →
  (∀ s, s ∈ ss → f_read E (Path (pf_out s)) = false) → NoDup (pf_out <$> ss) → Forall (prints_back E) tss →
  covers (pf_days <$> ss) seen → pdf_statement X o name parts seen ts → (∀ t, t ∈ ts → str_ok (t_description t)) →
  ¬ pdf_collides ts (sequence None 0 (window parts seen)) →
  (∀ f, um = Some f → writable E f) → writable E output →
  ∃ es, merge_cmd E ho (Path ∘ pf_out <$> ss) um output w' = (es, Ok tt) ∧
    holds w' (steps w' es) output (e_print E (into_ledger ho (stable_sort (by_key tp_date) (as_merged ts)))) ∧
    ∀ p, Path p ≠ output → same_file w' (steps w' es) p.
Proof. exact (c100_pdf E X o name ds parts ss w tss w' seen ts ho um output). Qed.
Print Assumptions C100_pdf.
(** Three days on two statements that overlap, the second on two pages. *)
Example C100_pdf_ex : imports pw_env pw_w (pdf_run od_env ex_cur <$> pw_ss) pw_tss (pw_run_all pw_w (pdf_run od_env ex_cur <$> pw_ss)) ∧
  env_ok od_env ∧ whole_days od_dates od_parts ∧
  Forall (pdf_file_ok od_env (s2l "12-34-56 12345678") od_parts) pw_ss ∧ Forall (prints_back pw_env) pw_tss ∧
  covers (pf_days <$> pw_ss) [0; 1; 2] ∧
  pdf_statement od_env ex_cur (s2l "12-34-56 12345678") od_parts [0; 1; 2] (od_ts od_doc) ∧
  (∀ t, t ∈ od_ts od_doc → str_ok (t_description t)) ∧
  ¬ pdf_collides (od_ts od_doc) (sequence None 0 (window od_parts [0; 1; 2])) ∧
  let w' := pw_run_all pw_w (pdf_run od_env ex_cur <$> pw_ss) in
  let run := merge_cmd pw_env default_order (Path ∘ pf_out <$> pw_ss) None (Path (s2l "out")) w' in
  (w_files w' !! s2l "a", w_files w' !! s2l "b", w_files (steps w' run.1) !! s2l "out") = (Some (s2l "A"), Some (s2l "B"), Some (s2l "AB")).
Proof.
  split; [exact pw_imports|]. split; [exact od_env_ok|]. split; [exact od_days|]. split; [exact pw_files|]. split; [exact pw_prints|].
  split; [exact od_covers|]. split; [exact od_all|]. split; [exact od_texts|]. split; [exact od_no_collision|]. vm_compute. reflexivity.
Qed.

(** C108 for PDF statements: *)
Theorem C108_pdf E o name ds parts ws tss seen ts hos X T Js :
  env_ok E → whole_days ds parts → Forall2 (pdf_statement E o name parts) ws tss →
  covers ws seen → pdf_statement E o name parts seen ts → (∀ t, t ∈ ts → str_ok (t_description t)) →
  ¬ pdf_collides ts (sequence None 0 (window parts seen)) →
  is_Some (T !! s2l "start") → leaves_fingerprints T → Forall2 (ruled X T) (as_merged <$> tss) Js →
  length hos = length ws → Forall hash_order_ok hos →
  ∃ J m, ruled X T (as_merged ts) J ∧ clean_run merger_new (zip hos Js) m ∧
    ∀ ho, hash_order_ok ho → build ho m = Ok (stable_sort (by_key tp_date) J).
Proof. exact (c108_pdf E o name ds parts ws tss seen ts hos X T Js). Qed.
Print Assumptions C108_pdf.
(** and by the commands. *)
Theorem C108_pdf_command E P o name ds parts ss w tss w' seen ts X F rules T rs w2 ho um output :
  env_ok P → whole_days ds parts → hash_order_ok ho →
  imports E w (pdf_run P o <$> ss) tss w' → Forall (pdf_file_ok P name parts) ss →
  (∀ s, s ∈ ss → f_read E (Path (pf_out s)) = false) → NoDup (pf_out <$> ss) → Forall (prints_back E) tss →
  covers (pf_days <$> ss) seen → pdf_statement P o name parts seen ts → (∀ t, t ∈ ts → str_ok (t_description t)) →
  ¬ pdf_collides ts (sequence None 0 (window parts seen)) →
  (* the rules, and their runs *)
  one_file F → rules_loaded F rules T → leaves_fingerprints T →
  rulings E X F rules w' rs w2 → rr_in <$> rs = pf_out <$> ss → NoDup (rr_out <$> rs) →
  (* no run overwrites the input of a later one *)
  (∀ i k r r', rs !! i = Some r → rs !! k = Some r' → i < k → rr_out r ≠ rr_in r') →
  (∀ r, r ∈ rs → f_read E (Path (rr_out r)) = false) →
  (∀ ts J, ts ∈ tss → ruled X T (as_merged ts) J → reads_back E J) →
  (∀ f, um = Some f → writable E f) → writable E output →
  ∃ J es, ruled X T (as_merged ts) J ∧ merge_cmd E ho (Path ∘ rr_out <$> rs) um output w2 = (es, Ok tt) ∧
    holds w2 (steps w2 es) output (e_print E (into_ledger ho (stable_sort (by_key tp_date) J))) ∧
    ∀ p, Path p ≠ output → same_file w2 (steps w2 es) p.
Proof. exact (c108_pdf_cmd E P o name ds parts ss w tss w' seen ts X F rules T rs w2 ho um output). Qed.
Print Assumptions C108_pdf_command.
(** The statements of C100_pdf_ex and the rules of C108_ex. *)
Example C108_pdf_ex :
  imports pq_env pw_w (pdf_run od_env ex_cur <$> pw_ss) pw_tss pq_w1 ∧ Forall (prints_back pq_env) pw_tss ∧
  one_file rx_F ∧ rules_loaded rx_F (s2l "/r/main") pi_T ∧ leaves_fingerprints pi_T ∧
  rulings pq_env rx_X rx_F (s2l "/r/main") pq_w1 pi_runs pq_w2 ∧ rr_in <$> pi_runs = pf_out <$> pw_ss ∧
  (∀ ts J, ts ∈ pw_tss → ruled rx_X pi_T (as_merged ts) J → reads_back pq_env J) ∧
  let run := merge_cmd pq_env default_order (Path ∘ rr_out <$> pi_runs) None (Path (s2l "out")) pq_w2 in
  (w_files pq_w2 !! s2l "ra", w_files pq_w2 !! s2l "rb", w_files (steps pq_w2 run.1) !! s2l "out") = (Some (s2l "RA"), Some (s2l "RB"), Some (s2l "RAB")) ∧
  map rx_shape (pq_J od_doc) ≠ map rx_shape (as_merged (od_ts od_doc)).
Proof.
  split; [exact pq_imports|]. split; [exact pq_prints|]. split; [exact rx_one|]. split; [exact pi_loaded|]. split; [exact pi_leaves|].
  split; [exact pq_rulings|]. split; [reflexivity|]. split; [exact pq_reads_back|]. cbv zeta. split; [vm_compute; reflexivity|].
  vm_compute. discriminate.
Qed.

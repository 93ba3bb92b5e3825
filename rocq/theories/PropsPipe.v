(** C108: statements are imported, rules are applied to what was imported, and the
    results are merged.  The vocabulary is in PipeClaims.v, StatementClaims.v,
    WorkCmdClaims.v and RulesClaims.v. *)
From Verif Require Import MergeClaims.
From Verif Require Import Base Types SpecBase BaseProofs CommentModel MergeModel CmdModel FingerprintModel NwCsvModel TzModel PaypalModel
  CommentClaims CmdClaims ImportClaims EditClaims WindowClaims StatementClaims CommentExamples MergeExamples ImportExamples TestsImport WorkflowExamples CmdExamples
  RulesModel RulesClaims RulesExamples HeaderClaims ImporterModel WorkCmdClaims WorkCmdExamples PipeClaims Pipe PipeExamples.
Local Open Scope nat_scope.

(** C108: the rules are applied to each of several overlapping statements; merging gives
    what the rules make of the one statement with all the days. *)
Theorem C108_nationwide pd o name rows ws tss seen ts hos X T Js :
  parser_ok pd → days rec_date rows → Forall2 (nw_statement pd o name rows) ws tss →
  covers ws seen → nw_statement pd o name rows seen ts → ¬ statement_collides (window rows seen) →
  is_Some (T !! s2l "start") → leaves_fingerprints T → Forall2 (ruled X T) (as_merged <$> tss) Js →
  length hos = length ws → Forall hash_order_ok hos →
  ∃ J m, ruled X T (as_merged ts) J ∧ clean_run merger_new (zip hos Js) m ∧
    ∀ ho, hash_order_ok ho → build ho m = Ok (stable_sort (by_key tp_date) J).
Proof. exact (c108_nationwide pd o name rows ws tss seen ts hos X T Js). Qed.
Print Assumptions C108_nationwide.
Theorem C108_paypal tz db ns groups ws tss seen ts hos X T Js :
  days (λ g, tz g.1) groups → Forall2 (pp_statement tz db ns groups) ws tss →
  covers ws seen → pp_statement tz db ns groups seen ts → NoDup (window groups seen).*1 → ¬ groups_collide (window groups seen) →
  is_Some (T !! s2l "start") → leaves_fingerprints T → Forall2 (ruled X T) (as_merged <$> tss) Js →
  length hos = length ws → Forall hash_order_ok hos →
  ∃ J m, ruled X T (as_merged ts) J ∧ clean_run merger_new (zip hos Js) m ∧
    ∀ ho, hash_order_ok ho → build ho m = Ok (stable_sort (by_key tp_date) J).
Proof. exact (c108_paypal tz db ns groups ws tss seen ts hos X T Js). Qed.
Print Assumptions C108_paypal.
(** The same by the commands: import to files, apply-rules from these to other files,
    merge of those. *)
Theorem C108_nationwide_command E V pd o name rows ss w tss w' seen ts X F rules T rs w2 ho um output :
  parser_ok pd → days rec_date rows → hash_order_ok ho →
  imports E w (nw_run E V pd o <$> ss) tss w' → Forall (nw_file V pd name rows w) ss →
  (∀ s, s ∈ ss → f_read E (Path (sf_csv s)) = false ∧ f_read E (Path (sf_out s)) = false) →
  NoDup (sf_out <$> ss) → (∀ s s', s ∈ ss → s' ∈ ss → sf_csv s ≠ sf_out s') → Forall (prints_back E) tss →
  covers (sf_days <$> ss) seen → nw_statement pd o name rows seen ts → ¬ statement_collides (window rows seen) →
  (* the rules, and their runs *)
  one_file F → rules_loaded F rules T → leaves_fingerprints T →
  rulings E X F rules w' rs w2 → rr_in <$> rs = sf_out <$> ss → NoDup (rr_out <$> rs) →
  (* no run overwrites the input of a later one *)
  (∀ i k r r', rs !! i = Some r → rs !! k = Some r' → i < k → rr_out r ≠ rr_in r') →
  (∀ r, r ∈ rs → f_read E (Path (rr_out r)) = false) →
  (∀ ts J, ts ∈ tss → ruled X T (as_merged ts) J → reads_back E J) →
  (∀ f, um = Some f → writable E f) → writable E output →
  ∃ J es, ruled X T (as_merged ts) J ∧ merge_cmd E ho (Path ∘ rr_out <$> rs) um output w2 = (es, Ok tt) ∧
    holds w2 (steps w2 es) output (e_print E (into_ledger ho (stable_sort (by_key tp_date) J))) ∧
    ∀ p, Path p ≠ output → same_file w2 (steps w2 es) p.
Proof. exact (c108_nationwide_cmd E V pd o name rows ss w tss w' seen ts X F rules T rs w2 ho um output). Qed.
Print Assumptions C108_nationwide_command.
Theorem C108_paypal_command E V tz db ns abbrs groups ss w tss w' seen ts X F rules T rs w2 ho um output :
  days (λ g, tz g.1) groups → hash_order_ok ho →
  imports E w (pp_run E V tz ns abbrs <$> ss) tss w' → Forall (pp_file V db groups w) ss →
  abbr_file V db w abbrs → f_read E (Path abbrs) = false → (∀ s, s ∈ ss → abbrs ≠ sf_out s) →
  (∀ s, s ∈ ss → f_read E (Path (sf_csv s)) = false ∧ f_read E (Path (sf_out s)) = false) →
  NoDup (sf_out <$> ss) → (∀ s s', s ∈ ss → s' ∈ ss → sf_csv s ≠ sf_out s') → Forall (prints_back E) tss →
  covers (sf_days <$> ss) seen → pp_statement tz db ns groups seen ts → NoDup (window groups seen).*1 → ¬ groups_collide (window groups seen) →
  (* the rules, and their runs *)
  one_file F → rules_loaded F rules T → leaves_fingerprints T →
  rulings E X F rules w' rs w2 → rr_in <$> rs = sf_out <$> ss → NoDup (rr_out <$> rs) →
  (* no run overwrites the input of a later one *)
  (∀ i k r r', rs !! i = Some r → rs !! k = Some r' → i < k → rr_out r ≠ rr_in r') →
  (∀ r, r ∈ rs → f_read E (Path (rr_out r)) = false) →
  (∀ ts J, ts ∈ tss → ruled X T (as_merged ts) J → reads_back E J) →
  (∀ f, um = Some f → writable E f) → writable E output →
  ∃ J es, ruled X T (as_merged ts) J ∧ merge_cmd E ho (Path ∘ rr_out <$> rs) um output w2 = (es, Ok tt) ∧
    holds w2 (steps w2 es) output (e_print E (into_ledger ho (stable_sort (by_key tp_date) J))) ∧
    ∀ p, Path p ≠ output → same_file w2 (steps w2 es) p.
Proof. exact (c108_paypal_cmd E V tz db ns abbrs groups ss w tss w' seen ts X F rules T rs w2 ho um output). Qed.
Print Assumptions C108_paypal_command.

(** Two statements with a common day, and rules from files that include each other. *)
Example C108_ex :
  imports pi_env wc_w (nw_run pi_env wc_V ex_dates ex_opts <$> wc_ss) wc_nw pi_w1 ∧
  Forall (nw_file wc_V ex_dates (s2l "Current") wd_days wc_w) wc_ss ∧ Forall (prints_back pi_env) wc_nw ∧
  days rec_date wd_days ∧ covers (sf_days <$> wc_ss) [0; 1; 2] ∧
  nw_statement ex_dates ex_opts (s2l "Current") wd_days [0; 1; 2] (wd_import [0; 1; 2]) ∧ ¬ statement_collides (window wd_days [0; 1; 2]) ∧
  one_file rx_F ∧ rules_loaded rx_F (s2l "/r/main") pi_T ∧ leaves_fingerprints pi_T ∧
  rulings pi_env rx_X rx_F (s2l "/r/main") pi_w1 pi_runs pi_w2 ∧ rr_in <$> pi_runs = sf_out <$> wc_ss ∧
  (∀ ts J, ts ∈ wc_nw → ruled rx_X pi_T (as_merged ts) J → reads_back pi_env J) ∧
  let run := merge_cmd pi_env default_order (Path ∘ rr_out <$> pi_runs) None (Path (s2l "out")) pi_w2 in
  (w_files pi_w2 !! s2l "ra", w_files pi_w2 !! s2l "rb", w_files (steps pi_w2 run.1) !! s2l "out") = (Some (s2l "RA"), Some (s2l "RB"), Some (s2l "RAB")) ∧
  map rx_shape (pi_J [0; 1; 2]) ≠ map rx_shape (as_merged (wd_import [0; 1; 2])).
Proof.
  split; [exact pi_imports|]. split; [exact wc_files|]. split; [exact pi_prints|]. split; [exact wd_days_ok|]. split; [exact wd_covers|].
  split; [exact wd_012|]. split; [exact wd_no_collision|]. split; [exact rx_one|]. split; [exact pi_loaded|]. split; [exact pi_leaves|].
  split; [exact pi_rulings|]. split; [reflexivity|]. split; [exact pi_reads_back|]. cbv zeta. split; [vm_compute; reflexivity|].
  vm_compute. discriminate.
Qed.

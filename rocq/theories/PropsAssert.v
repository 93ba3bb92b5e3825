(** C131: balances that the bank states hold in the merged journal. *)
From Verif Require Import MergeClaims.
From Verif Require Import Base Types SpecBase BaseProofs CommentModel MergeModel CmdModel FingerprintModel NwCsvModel TzModel PaypalModel OcrModel PdfModel
  CommentClaims FingerprintClaims CmdClaims ImportClaims EditClaims WindowClaims StatementClaims PdfClaims PdfDaysClaims PdfDays ImportDays PaypalDays
  RulesModel RulesClaims HeaderClaims ImporterModel WorkCmdClaims PdfWorkClaims PipeClaims Pipe PipePdf   CommentExamples MergeExamples ImportExamples TestsImport WorkflowExamples CmdExamples SameFpExamples PdfExamples PdfDaysExamples RulesExamples PipeExamples
  AssertClaims Assert Assert2 AssertExamples.
From Coq Require Import QArith.
Local Open Scope nat_scope.

(** Overlapping statements are imported and merged. If each balance on the statements
    is the one before the first payment plus the payments up to it, then the journal
    satisfies the balance assertions of its postings: Ledger accepts it. *)
Theorem C131_nationwide pd o name rows ws tss seen ts hos ens start :
  parser_ok pd → days rec_date rows → Forall2 (nw_statement pd o name rows) ws tss →
  covers ws seen → nw_statement pd o name rows seen ts → ¬ statement_collides (window rows seen) →
  length hos = length ws → Forall hash_order_ok hos →
  Forall2 nw_entry (stable_sort (by_key rec_date) (window rows seen)) ens → adds_up start ens →
  ∃ m, clean_run merger_new (zip hos (as_merged <$> tss)) m ∧
    ∀ ho, hash_order_ok ho → ∃ out, build ho m = Ok out ∧ assertions_hold (s2l "assets:unknown") start (all_posts out).
Proof. exact (c131_nationwide pd o name rows ws tss seen ts hos ens start). Qed.
Print Assumptions C131_nationwide.
Theorem C131_paypal tz db ns groups ws tss seen ts hos start :
  days (λ g, tz g.1) groups → Forall2 (pp_statement tz db ns groups) ws tss →
  covers ws seen → pp_statement tz db ns groups seen ts → NoDup (window groups seen).*1 → ¬ groups_collide (window groups seen) →
  length hos = length ws → Forall hash_order_ok hos →
  adds_up start (pp_entry <$> (stable_sort (by_key (λ g, tz g.1)) (window groups seen) ≫= snd)) →
  ∃ m, clean_run merger_new (zip hos (as_merged <$> tss)) m ∧
    ∀ ho, hash_order_ok ho → ∃ out, build ho m = Ok out ∧ assertions_hold (s2l "assets:unknown") start (all_posts out).
Proof. exact (c131_paypal tz db ns groups ws tss seen ts hos start). Qed.
Print Assumptions C131_paypal.
Theorem C131_pdf P o name ds parts ws tss seen ts hos ens start :
  env_ok P → whole_days ds parts → Forall2 (pdf_statement P o name parts) ws tss →
  covers ws seen → pdf_statement P o name parts seen ts → (∀ t, t ∈ ts → str_ok (t_description t)) →
  ¬ pdf_collides ts (sequence None 0 (window parts seen)) →
  length hos = length ws → Forall hash_order_ok hos →
  Forall2 (pdf_entry P) (stable_sort (by_key group_date) (window parts seen)) ens → adds_up start ens →
  ∃ m, clean_run merger_new (zip hos (as_merged <$> tss)) m ∧
    ∀ ho, hash_order_ok ho → ∃ out, build ho m = Ok out ∧ assertions_hold (s2l "assets:unknown") start (all_posts out).
Proof. exact (c131_pdf P o name ds parts ws tss seen ts hos ens start). Qed.
Print Assumptions C131_pdf.
(** The same with rules between import and merge that put what is on assets:unknown,
    and nothing else, on the account [A]. *)
Theorem C131_nationwide_ruled pd o name rows ws tss seen ts hos X T Js A ens start :
  parser_ok pd → days rec_date rows → Forall2 (nw_statement pd o name rows) ws tss →
  covers ws seen → nw_statement pd o name rows seen ts → ¬ statement_collides (window rows seen) →
  is_Some (T !! s2l "start") → leaves_fingerprints T → Forall2 (ruled X T) (as_merged <$> tss) Js →
  (∀ J, ruled X T (as_merged ts) J → puts_on A (as_merged ts) J) →
  length hos = length ws → Forall hash_order_ok hos →
  Forall2 nw_entry (stable_sort (by_key rec_date) (window rows seen)) ens → adds_up start ens →
  ∃ m, clean_run merger_new (zip hos Js) m ∧
    ∀ ho, hash_order_ok ho → ∃ out, build ho m = Ok out ∧ assertions_hold A start (all_posts out).
Proof. exact (c131_nationwide_ruled pd o name rows ws tss seen ts hos X T Js A ens start). Qed.
Print Assumptions C131_nationwide_ruled.
Theorem C131_paypal_ruled tz db ns groups ws tss seen ts hos X T Js A start :
  days (λ g, tz g.1) groups → Forall2 (pp_statement tz db ns groups) ws tss →
  covers ws seen → pp_statement tz db ns groups seen ts → NoDup (window groups seen).*1 → ¬ groups_collide (window groups seen) →
  is_Some (T !! s2l "start") → leaves_fingerprints T → Forall2 (ruled X T) (as_merged <$> tss) Js →
  (∀ J, ruled X T (as_merged ts) J → puts_on A (as_merged ts) J) →
  length hos = length ws → Forall hash_order_ok hos →
  adds_up start (pp_entry <$> (stable_sort (by_key (λ g, tz g.1)) (window groups seen) ≫= snd)) →
  ∃ m, clean_run merger_new (zip hos Js) m ∧
    ∀ ho, hash_order_ok ho → ∃ out, build ho m = Ok out ∧ assertions_hold A start (all_posts out).
Proof. exact (c131_paypal_ruled tz db ns groups ws tss seen ts hos X T Js A start). Qed.
Print Assumptions C131_paypal_ruled.
Theorem C131_pdf_ruled P o name ds parts ws tss seen ts hos X T Js A ens start :
  env_ok P → whole_days ds parts → Forall2 (pdf_statement P o name parts) ws tss →
  covers ws seen → pdf_statement P o name parts seen ts → (∀ t, t ∈ ts → str_ok (t_description t)) →
  ¬ pdf_collides ts (sequence None 0 (window parts seen)) →
  is_Some (T !! s2l "start") → leaves_fingerprints T → Forall2 (ruled X T) (as_merged <$> tss) Js →
  (∀ J, ruled X T (as_merged ts) J → puts_on A (as_merged ts) J) →
  length hos = length ws → Forall hash_order_ok hos →
  Forall2 (pdf_entry P) (stable_sort (by_key group_date) (window parts seen)) ens → adds_up start ens →
  ∃ m, clean_run merger_new (zip hos Js) m ∧
    ∀ ho, hash_order_ok ho → ∃ out, build ho m = Ok out ∧ assertions_hold A start (all_posts out).
Proof. exact (c131_pdf_ruled P o name ds parts ws tss seen ts hos X T Js A ens start). Qed.
Print Assumptions C131_pdf_ruled.
(** The same by the commands. *)
Theorem C131_nationwide_command E V pd o name rows ss w tss w' seen ts X F rules T rs w2 ho um output A ens start :
  Forall2 nw_entry (stable_sort (by_key rec_date) (window rows seen)) ens → adds_up start ens →
  parser_ok pd → days rec_date rows → hash_order_ok ho →
  imports E w (nw_run E V pd o <$> ss) tss w' → Forall (nw_file V pd name rows w) ss →
  (∀ s, s ∈ ss → f_read E (Path (sf_csv s)) = false ∧ f_read E (Path (sf_out s)) = false) →
  NoDup (sf_out <$> ss) → (∀ s s', s ∈ ss → s' ∈ ss → sf_csv s ≠ sf_out s') → Forall (prints_back E) tss →
  covers (sf_days <$> ss) seen → nw_statement pd o name rows seen ts → ¬ statement_collides (window rows seen) →
  (* the rules, and their runs *)
  one_file F → rules_loaded F rules T → leaves_fingerprints T →
  rulings E X F rules w' rs w2 → rr_in <$> rs = sf_out <$> ss → NoDup (rr_out <$> rs) →
  (* no run overwrites the input of a later one *)
  (∀ i k r r', rs !! i = Some r → rs !! k = Some r' → i < k → rr_out r ≠ rr_in r') →
  (∀ r, r ∈ rs → f_read E (Path (rr_out r)) = false) →
  (∀ ts J, ts ∈ tss → ruled X T (as_merged ts) J → reads_back E J) →
  (∀ J, ruled X T (as_merged ts) J → puts_on A (as_merged ts) J) →
  (∀ f, um = Some f → writable E f) → writable E output →
  ∃ out es, merge_cmd E ho (Path ∘ rr_out <$> rs) um output w2 = (es, Ok tt) ∧
    holds w2 (steps w2 es) output (e_print E (into_ledger ho out)) ∧ assertions_hold A start (all_posts out).
Proof. exact (c131_nationwide_cmd E V pd o name rows ss w tss w' seen ts X F rules T rs w2 ho um output A ens start). Qed.
Print Assumptions C131_nationwide_command.
Theorem C131_paypal_command E V tz db ns abbrs groups ss w tss w' seen ts X F rules T rs w2 ho um output A start :
  adds_up start (pp_entry <$> (stable_sort (by_key (λ g, tz g.1)) (window groups seen) ≫= snd)) →
  days (λ g, tz g.1) groups → hash_order_ok ho →
  imports E w (pp_run E V tz ns abbrs <$> ss) tss w' → Forall (pp_file V db groups w) ss →
  abbr_file V db w abbrs → f_read E (Path abbrs) = false → (∀ s, s ∈ ss → abbrs ≠ sf_out s) →
  (∀ s, s ∈ ss → f_read E (Path (sf_csv s)) = false ∧ f_read E (Path (sf_out s)) = false) →
  NoDup (sf_out <$> ss) → (∀ s s', s ∈ ss → s' ∈ ss → sf_csv s ≠ sf_out s') → Forall (prints_back E) tss →
  covers (sf_days <$> ss) seen → pp_statement tz db ns groups seen ts → NoDup (window groups seen).*1 → ¬ groups_collide (window groups seen) →
  (* the rules, and their runs *)
  one_file F → rules_loaded F rules T → leaves_fingerprints T →
  rulings E X F rules w' rs w2 → rr_in <$> rs = sf_out <$> ss → NoDup (rr_out <$> rs) →
  (* no run overwrites the input of a later one *)
  (∀ i k r r', rs !! i = Some r → rs !! k = Some r' → i < k → rr_out r ≠ rr_in r') →
  (∀ r, r ∈ rs → f_read E (Path (rr_out r)) = false) →
  (∀ ts J, ts ∈ tss → ruled X T (as_merged ts) J → reads_back E J) →
  (∀ J, ruled X T (as_merged ts) J → puts_on A (as_merged ts) J) →
  (∀ f, um = Some f → writable E f) → writable E output →
  ∃ out es, merge_cmd E ho (Path ∘ rr_out <$> rs) um output w2 = (es, Ok tt) ∧
    holds w2 (steps w2 es) output (e_print E (into_ledger ho out)) ∧ assertions_hold A start (all_posts out).
Proof. exact (c131_paypal_cmd E V tz db ns abbrs groups ss w tss w' seen ts X F rules T rs w2 ho um output A start). Qed.
Print Assumptions C131_paypal_command.
Theorem C131_pdf_command E P o name ds parts ss w tss w' seen ts X F rules T rs w2 ho um output A ens start :
  Forall2 (pdf_entry P) (stable_sort (by_key group_date) (window parts seen)) ens → adds_up start ens →
  env_ok P → whole_days ds parts → hash_order_ok ho →
  imports E w (pdf_run P o <$> ss) tss w' → Forall (pdf_file_ok P name parts) ss →
  (∀ s, s ∈ ss → f_read E (Path (pf_out s)) = false) → NoDup (pf_out <$> ss) → Forall (prints_back E) tss →
  covers (pf_days <$> ss) seen → pdf_statement P o name parts seen ts → (∀ t, t ∈ ts → str_ok (t_description t)) →
  ¬ pdf_collides ts (sequence None 0 (window parts seen)) →
  (* the rules, and their runs *)
  one_file F → rules_loaded F rules T → leaves_fingerprints T →
  rulings E X F rules w' rs w2 → rr_in <$> rs = pf_out <$> ss → NoDup (rr_out <$> rs) →
  (* no run overwrites the input of a later one *)
  (∀ i k r r', rs !! i = Some r → rs !! k = Some r' → i < k → rr_out r ≠ rr_in r') →
  (∀ r, r ∈ rs → f_read E (Path (rr_out r)) = false) →
  (∀ ts J, ts ∈ tss → ruled X T (as_merged ts) J → reads_back E J) →
  (∀ J, ruled X T (as_merged ts) J → puts_on A (as_merged ts) J) →
  (∀ f, um = Some f → writable E f) → writable E output →
  ∃ out es, merge_cmd E ho (Path ∘ rr_out <$> rs) um output w2 = (es, Ok tt) ∧
    holds w2 (steps w2 es) output (e_print E (into_ledger ho out)) ∧ assertions_hold A start (all_posts out).
Proof. exact (c131_pdf_cmd E P o name ds parts ss w tss w' seen ts X F rules T rs w2 ho um output A ens start). Qed.
Print Assumptions C131_pdf_command.

(** Two statements with a common day, with all balances; rules that put the account's
    side on assets:current; the journal written by merge. *)
Example C131_ex :
  days rec_date ab_days ∧ Forall2 nw_entry (stable_sort (by_key rec_date) (window ab_days [0; 1; 2])) ab_entries ∧ adds_up ab_start ab_entries ∧
  imports ab_env ab_w (nw_run ab_env ab_V ex_dates (six_opts false) <$> ab_ss) ab_tss ab_w1 ∧
  Forall (nw_file ab_V ex_dates (s2l "Current") ab_days ab_w) ab_ss ∧ Forall (prints_back ab_env) ab_tss ∧
  covers (sf_days <$> ab_ss) [0; 1; 2] ∧
  nw_statement ex_dates (six_opts false) (s2l "Current") ab_days [0; 1; 2] (ab_import [0; 1; 2]) ∧ ¬ statement_collides (window ab_days [0; 1; 2]) ∧
  one_file ab_F ∧ rules_loaded ab_F (s2l "/r") ab_loaded_T ∧ leaves_fingerprints ab_loaded_T ∧
  rulings ab_env rx_X ab_F (s2l "/r") ab_w1 pi_runs ab_w2 ∧ rr_in <$> pi_runs = sf_out <$> ab_ss ∧
  (∀ ts J, ts ∈ ab_tss → ruled rx_X ab_loaded_T (as_merged ts) J → reads_back ab_env J) ∧
  (∀ J, ruled rx_X ab_loaded_T (as_merged (ab_import [0; 1; 2])) J → puts_on (s2l "assets:current") (as_merged (ab_import [0; 1; 2])) J) ∧
  let run := merge_cmd ab_env default_order (Path ∘ rr_out <$> pi_runs) None (Path (s2l "out")) ab_w2 in
  w_files (steps ab_w2 run.1) !! s2l "out" = Some (s2l "RAB") ∧
  (λ p, (p_balance (pi_raw p))) <$> on_account (s2l "assets:current") (all_posts (stable_sort (by_key tp_date) (ab_J (ab_import [0; 1; 2])))) =
    (λ e, BalAmount <$> en_balance e) <$> ab_entries.
Proof.
  split; [exact ab_days_ok|]. split; [exact ab_says|]. split; [exact ab_adds_up|]. split; [exact ab_imports|]. split; [exact ab_files|].
  split; [exact ab_prints|]. split; [exact ab_covers|]. split; [exact ab_all|]. split; [exact ab_no_collision|]. split; [exact ab_one|].
  split; [exact ab_loaded|]. split; [exact ab_leaves|]. split; [exact ab_rulings|]. split; [reflexivity|]. split; [exact ab_reads_back|].
  split; [apply ab_puts; vm_compute; reflexivity|]. cbv zeta. split; vm_compute; reflexivity.
Qed.
(** PayPal, with two currencies; and a PDF with one balance, known payments before it
    and after it. *)
Example C131_paypal_ex :
  pp_statement test_tz ex_db (s2l "paypal") pd_groups [0] (pd_import [0]) ∧
  adds_up ab_zero (pp_entry <$> (stable_sort (by_key (λ g : instant * list pp_row, test_tz g.1)) (window pd_groups [0]) ≫= snd)).
Proof. split; [apply pd_one; left|exact ab_pp_adds_up]. Qed.
Example C131_pdf_ex :
  pdf_statement od_env ex_cur (s2l "12-34-56 12345678") od_parts [0; 1; 2] (od_ts od_doc) ∧
  Forall2 (pdf_entry od_env) (stable_sort (by_key group_date) (window od_parts [0; 1; 2])) ab_pdf_entries ∧ adds_up ab_pdf_start ab_pdf_entries.
Proof. split; [exact od_all|]. split; [exact ab_pdf_says|exact ab_pdf_adds_up]. Qed.
(** The order of the rows matters: PayPal lists the payments of one time in an order in
    which the balances do not follow, and the journal keeps that order. *)
Theorem C131_order_needed :
  pp_statement test_tz ex_db (s2l "paypal") pd_groups [0; 1] (pd_import [0; 1]) ∧
  ∀ start, ¬ assertions_hold (s2l "assets:unknown") start (all_posts (stable_sort (by_key tp_date) (as_merged (pd_import [0; 1])))).
Proof. split; [apply pd_one; right; right; left|exact ab_pp_order]. Qed.
Print Assumptions C131_order_needed.

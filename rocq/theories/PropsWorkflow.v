(** Properties of repeated runs: journals edited between merges, rules applied
    between merges, overlapping statements. *)
From Verif Require Import MergeClaims.
From Verif Require Import Base Types SpecBase BaseProofs CommentModel MergeModel FingerprintModel NwCsvModel TzModel PaypalModel ImportClaims RulesModel RulesClaims.
From Verif Require Import EditClaims WindowClaims StatementClaims MergeEdit RulesEdit MergeDays ImportDays PaypalDays
  CommentExamples MergeExamples RulesExamples ImportExamples TestsImport WorkflowExamples.
Local Open Scope nat_scope.

(** C84 *)
Theorem C84_edits_survive runs m ho out J :
  clean_run merger_new runs m → hash_order_ok ho → build ho m = Ok out →
  journal_ok J → edited out J →
  ∀ hos, length hos = S (length runs) → Forall hash_order_ok hos →
  ∃ m' out', clean_run merger_new (zip hos (J :: runs.*2)) m' ∧ (∀ ho', hash_order_ok ho' → build ho' m' = Ok out') ∧
    Forall2 trn_refines (stable_sort (by_key tp_date) J) out'.
Proof. exact (replay_edited runs m ho out J). Qed.
Print Assumptions C84_edits_survive.
Example C84_ex : clean_run merger_new wf_runs wf_m ∧ (build default_order wf_m = Ok wf_out ∧ length wf_out = 4) ∧
  journal_ok wf_J ∧ edited wf_out wf_J ∧ stable_sort (by_key tp_date) wf_J ≠ wf_J.
Proof. exact (conj wf_clean (conj wf_built (conj wf_J_ok (conj wf_edited wf_moved)))). Qed.

(** C85 *)
Theorem C85_rules_survive runs m ho out X T n J :
  clean_run merger_new runs m → hash_order_ok ho → build ho m = Ok out →
  leaves_fingerprints T → update_transactions X ho T n out = Some (Ok J) →
  ∀ hos, length hos = S (length runs) → Forall hash_order_ok hos →
  ∃ m' out', clean_run merger_new (zip hos (J :: runs.*2)) m' ∧ (∀ ho', hash_order_ok ho' → build ho' m' = Ok out') ∧
    Forall2 trn_refines J out'.
Proof. exact (replay_ruled runs m ho out X T n J). Qed.
Print Assumptions C85_rules_survive.
Example C85_ex : leaves_fingerprints rx_T ∧ update_transactions rx_X default_order rx_T 2 wf_out = Some (Ok wf_ruled) ∧
  map rx_shape wf_ruled ≠ map rx_shape wf_out.
Proof. exact (conj wf_leaves wf_rules). Qed.

(** C86 *)
Theorem C86_overlapping_sets parts ws :
  journal_ok (concat parts) → days tp_date parts → Forall (λ hw, hash_order_ok hw.1 ∧ NoDup hw.2) ws →
  ∃ m, clean_run merger_new (prod_map id (window parts) <$> ws) m ∧
    ∀ seen ho, covers ws.*2 seen → hash_order_ok ho →
      build ho m = Ok (stable_sort (by_key tp_date) (window parts seen)).
Proof. exact (days_merge parts ws). Qed.
Print Assumptions C86_overlapping_sets.
(** The parts need not be days, as long as postings of different parts that could be
    taken for each other are on different dates. *)
Theorem C86_separate_sets parts ws :
  separate parts → Forall (λ hw, hash_order_ok hw.1 ∧ NoDup hw.2) ws →
  ∃ m seen, clean_run merger_new (prod_map id (window parts) <$> ws) m ∧ covers ws.*2 seen ∧
    ∀ ho, hash_order_ok ho → build ho m = Ok (stable_sort (by_key tp_date) (window parts seen)).
Proof. exact (windows_merge parts ws). Qed.
Print Assumptions C86_separate_sets.
Example C86_ex : journal_ok (concat [[ex_t1; ex_t2]; [ex_t3]]) ∧ days tp_date [[ex_t1; ex_t2]; [ex_t3]] ∧
  ∀ m, clean_run merger_new [(default_order, [ex_t3]); (reverse_order, [ex_t1; ex_t2; ex_t3])] m →
    build default_order m = Ok [ex_t1; ex_t2; ex_t3].
Proof. exact (conj wp_ok (conj wp_days wp_merged)). Qed.

(** C87 *)
Theorem C87_overlapping_statements pd o name rows ws tss seen ts hos :
  parser_ok pd → days rec_date rows → Forall2 (nw_statement pd o name rows) ws tss →
  covers ws seen → nw_statement pd o name rows seen ts → ¬ statement_collides (window rows seen) →
  length hos = length ws → Forall hash_order_ok hos →
  ∃ m, clean_run merger_new (zip hos (as_merged <$> tss)) m ∧
    ∀ ho, hash_order_ok ho → build ho m = Ok (stable_sort (by_key tp_date) (as_merged ts)).
Proof. exact (nw_overlaps pd o name rows ws tss seen ts hos). Qed.
Print Assumptions C87_overlapping_statements.
Example C87_ex : days rec_date wd_days ∧
  Forall2 (nw_statement ex_dates ex_opts (s2l "Current") wd_days) [[0; 1]; [2; 1]] [wd_import [0; 1]; wd_import [2; 1]] ∧
  covers [[0; 1]; [2; 1]] [0; 1; 2] ∧ nw_statement ex_dates ex_opts (s2l "Current") wd_days [0; 1; 2] (wd_import [0; 1; 2]) ∧
  ¬ statement_collides (window wd_days [0; 1; 2]) ∧ length (wd_import [0; 1; 2]) = 4.
Proof.
  split_and!; [exact wd_days_ok|exact (List.Forall2_cons _ _ wd_01 (List.Forall2_cons _ _ wd_12 (List.Forall2_nil _)))
    |exact wd_covers|exact wd_012|exact wd_no_collision|vm_compute; reflexivity].
Qed.

(** C88 *)
Theorem C88_overlapping_paypal tz db ns groups ws tss seen ts hos :
  days (λ g, tz g.1) groups → Forall2 (pp_statement tz db ns groups) ws tss →
  covers ws seen → pp_statement tz db ns groups seen ts → NoDup (window groups seen).*1 → ¬ groups_collide (window groups seen) →
  length hos = length ws → Forall hash_order_ok hos →
  ∃ m, clean_run merger_new (zip hos (as_merged <$> tss)) m ∧
    ∀ ho, hash_order_ok ho → build ho m = Ok (stable_sort (by_key tp_date) (as_merged ts)).
Proof. exact (pp_overlaps tz db ns groups ws tss seen ts hos). Qed.
Print Assumptions C88_overlapping_paypal.
Example C88_ex : days (λ g, test_tz g.1) pd_groups ∧
  (∀ w, w ∈ [[0]; [1; 0]; [0; 1]] → pp_statement test_tz ex_db (s2l "paypal") pd_groups w (pd_import w)) ∧
  (NoDup (window pd_groups [0; 1]).*1 ∧ ¬ groups_collide (window pd_groups [0; 1])) ∧ length (pd_import [1; 0]) = 2.
Proof. split_and!; [exact pd_days|exact pd_one|apply pd_no_collision..|vm_compute; reflexivity]. Qed.

(** C89 is false: statements cut within a day lose payments, or cannot be merged. *)
Theorem C89_cut_within_a_day_refuted : ∃ pd o name rs ta tb t ho,
  parser_ok pd ∧ contiguous (rec_date <$> rs) ∧ ¬ statement_collides rs ∧ hash_order_ok ho ∧ length rs = 3 ∧
  row_statement pd o name (take 1 rs) ta ∧ row_statement pd o name (drop 1 rs) tb ∧ row_statement pd o name rs t ∧
  (∃ m out, clean_run merger_new [(ho, as_merged ta); (ho, as_merged tb)] m ∧ build ho m = Ok out ∧ length out = 2) ∧
  ∃ m m' e, merge ho merger_new (as_merged ta) = (m, Ok []) ∧ merge ho m (as_merged t) = (m', Err e).
Proof. exact c89_refuted. Qed.
Print Assumptions C89_cut_within_a_day_refuted.

(** Statements in files, for the examples beside C98-C100. *)
From Verif Require Import MergeClaims.
From Verif Require Import Base Types SpecBase BaseProofs CommentModel MergeModel CmdModel FingerprintModel NwCsvModel TzModel PaypalModel
  CommentClaims CmdClaims ImportClaims EditClaims WindowClaims StatementClaims CommentExamples MergeExamples ImportExamples TestsImport WorkflowExamples CmdExamples
  HeaderClaims ImporterModel WorkCmdClaims WorkCmd.
Local Open Scope nat_scope.

Definition wc_nw : list (list transaction) := [wd_import [0; 1]; wd_import [2; 1]].
Definition wc_pp : list (list transaction) := [pd_import [0]; pd_import [1; 0]].
Definition wc_out (ts : list transaction) : ledger := into_ledger default_order (stable_sort (by_key tp_date) (as_merged ts)).
Definition wc_codec : codec :=
  [(s2l "A", ledger_from_transactions (wd_import [0; 1])); (s2l "B", ledger_from_transactions (wd_import [2; 1]));
   (s2l "AB", wc_out (wd_import [0; 1; 2]));
   (s2l "C", ledger_from_transactions (pd_import [0])); (s2l "D", ledger_from_transactions (pd_import [1; 0]));
   (s2l "CD", wc_out (pd_import [0; 1]))].
Definition wc_env : env := ex_env wc_codec.
Definition wc_V : csv_env := CsvEnv
  (λ t, if str_eqb t (s2l "csv1") then Some (ex_head ++ window wd_rows [0; 1])
        else if str_eqb t (s2l "csv2") then Some (ex_head ++ window wd_rows [2; 1]) else None)
  (λ t, if str_eqb t (s2l "csv3") then Some (window pd_groups [0] ≫= snd)
        else if str_eqb t (s2l "csv4") then Some (window pd_groups [1; 0] ≫= snd) else None)
  (λ t, if str_eqb t (s2l "zones") then Some [(s2l "GMT", s2l "UTC+00")] else None).
Definition wc_w : world := World {[ s2l "1.csv" := s2l "csv1"; s2l "2.csv" := s2l "csv2"; s2l "3.csv" := s2l "csv3"; s2l "4.csv" := s2l "csv4";
  s2l "zones.csv" := s2l "zones"; s2l "a" := s2l "OLD" ]} ∅ [] [].
Definition wc_ss : list statement_file :=
  [StatementFile default_order (s2l "1.csv") (s2l "a") [0; 1]; StatementFile reverse_order (s2l "2.csv") (s2l "b") [2; 1]].
Definition wc_ps : list statement_file :=
  [StatementFile default_order (s2l "3.csv") (s2l "a") [0]; StatementFile reverse_order (s2l "4.csv") (s2l "b") [1; 0]].
Definition run_all (w : world) (runs : list (io import * str)) : world :=
  foldl (λ w r, steps w (import_cmd wc_env r.1 (Path r.2) false false w).1) w runs.
Lemma imports_check w runs tss :
  (fix go w runs tss := match runs, tss with
    | [], [] => true
    | r :: runs, ts :: tss =>
        match r.1 w, import_cmd wc_env r.1 (Path r.2) false false w with
        | (_, Ok i), (es, Ok _) => bool_decide (im_transactions i = ts) && go (steps w es) runs tss
        | _, _ => false
        end
    | _, _ => false
    end) w runs tss = true → imports wc_env w runs tss (run_all w runs).
Proof.
  revert w tss. induction runs as [|[imp out] runs IH]; intros w [|ts tss] H; try done; [constructor|].
  cbn [fst snd] in H. destruct (imp w) as [es0 [[ns ts0]|e|]] eqn:E1; [|done..].
  destruct (import_cmd wc_env imp (Path out) false false w) as [es [[]|e|]] eqn:E2; [|done..].
  apply andb_true_iff in H as [H1 H2]. apply bool_decide_eq_true in H1. cbn [im_transactions] in H1. subst ts0.
  unfold run_all. cbn [foldl fst snd]. rewrite E2. cbn [fst]. econstructor; [exact E1|exact E2|]. by apply IH.
Qed.
Lemma wc_imports : imports wc_env wc_w (nw_run wc_env wc_V ex_dates ex_opts <$> wc_ss) wc_nw
  (run_all wc_w (nw_run wc_env wc_V ex_dates ex_opts <$> wc_ss)).
Proof. apply imports_check. vm_compute. reflexivity. Qed.
Lemma wc_pp_imports : imports wc_env wc_w (pp_run wc_env wc_V test_tz (s2l "paypal") (s2l "zones.csv") <$> wc_ps) wc_pp
  (run_all wc_w (pp_run wc_env wc_V test_tz (s2l "paypal") (s2l "zones.csv") <$> wc_ps)).
Proof. apply imports_check. vm_compute. reflexivity. Qed.
Lemma wc_file s text w : hash_order_ok (sf_order s) → NoDup (sf_days s) → w_files wc_w !! sf_csv s = Some text → sf_days s = w →
  ce_nationwide wc_V text = Some (ex_head ++ window wd_rows w) →
  forallb (λ r, forallb field_okb r) (ex_head ++ window wd_rows w) = true →
  rmapM (λ r, rmap Five (de_five ex_dates r)) (window wd_rows w) = Ok (window wd_days w) →
  nw_file wc_V ex_dates (s2l "Current") wd_days wc_w s.
Proof.
  intros Hho Hnd Ht <- Hc Hf Hr. split; [done|]. split; [done|]. exists text, (ex_head ++ window wd_rows (sf_days s)).
  split; [done|]. split; [done|]. split; [by apply fields_ok_check|]. by eapply wd_reads.
Qed.
Lemma wc_files : Forall (nw_file wc_V ex_dates (s2l "Current") wd_days wc_w) wc_ss.
Proof.
  apply Forall_cons. split; [|apply Forall_singleton].
  - eapply (wc_file _ (s2l "csv1")); [exact default_order_ok|by_compute|vm_compute; reflexivity|reflexivity|vm_compute; reflexivity..].
  - eapply (wc_file _ (s2l "csv2")); [exact reverse_order_ok|by_compute|vm_compute; reflexivity|reflexivity|vm_compute; reflexivity..].
Qed.
Lemma wc_pp_file s text w : hash_order_ok (sf_order s) → NoDup (sf_days s) → w_files wc_w !! sf_csv s = Some text → sf_days s = w →
  ce_paypal wc_V text = Some (window pd_groups w ≫= snd) → forallb pp_row_okb (window pd_groups w ≫= snd) = true →
  (N.of_nat (length (window pd_groups w ≫= snd)) <? 2 ^ 64)%N = true → runs ex_db (window pd_groups w ≫= snd) (window pd_groups w) →
  pp_file wc_V ex_db pd_groups wc_w s.
Proof.
  intros Hho Hnd Ht <- Hc H1 H2 Hr. split; [done|]. split; [done|]. exists text, (window pd_groups (sf_days s) ≫= snd).
  split; [done|]. split; [done|]. split; [by apply rows_ok_check|done].
Qed.
Lemma wc_pp_files : Forall (pp_file wc_V ex_db pd_groups wc_w) wc_ps.
Proof.
  apply Forall_cons. split; [|apply Forall_singleton].
  - eapply (wc_pp_file _ (s2l "csv3")); [exact default_order_ok|by_compute|vm_compute; reflexivity|reflexivity|vm_compute; reflexivity..|].
    apply runs_check; [vm_compute; reflexivity|by_compute].
  - eapply (wc_pp_file _ (s2l "csv4")); [exact reverse_order_ok|by_compute|vm_compute; reflexivity|reflexivity|vm_compute; reflexivity..|].
    apply runs_check; [vm_compute; reflexivity|by_compute].
Qed.
Lemma wc_abbrs : abbr_file wc_V ex_db wc_w (s2l "zones.csv").
Proof. exists (s2l "zones"), [(s2l "GMT", s2l "UTC+00")]. split; [vm_compute; reflexivity|]. split; [vm_compute; reflexivity|]. vm_compute. reflexivity. Qed.
Lemma wc_prints : Forall (prints_back wc_env) wc_nw ∧ Forall (prints_back wc_env) wc_pp.
Proof. split; repeat (apply Forall_cons; split; [vm_compute; reflexivity|]); done. Qed.

(** Statements imported to files, ruled and merged, for the examples beside C108. *)
From Verif Require Import MergeClaims.
From Verif Require Import Base Types SpecBase BaseProofs CommentModel MergeModel CmdModel FingerprintModel NwCsvModel TzModel PaypalModel
  CommentClaims CmdClaims ImportClaims EditClaims WindowClaims StatementClaims CommentExamples MergeExamples ImportExamples TestsImport WorkflowExamples CmdExamples
  RulesModel RulesClaims RulesProofs RulesLaws RulesLoad RulesCmd RulesExamples CmdIdem HeaderClaims ImporterModel WorkCmdClaims WorkCmd WorkCmdExamples PipeClaims Pipe.
Local Open Scope nat_scope.

Definition pi_T : table := match load_from_path rx_F default_order 7 (s2l "/r/main") with Some (Ok T) => T | _ => ∅ end.
Definition pi_J (w : list nat) : list transaction_postings :=
  match update_transactions rx_X default_order pi_T 7 (as_merged (wd_import w)) with Some (Ok J) => J | _ => [] end.
Definition pi_codec : codec :=
  [(s2l "A", ledger_from_transactions (wd_import [0; 1])); (s2l "B", ledger_from_transactions (wd_import [2; 1]));
   (s2l "RA", into_ledger default_order (pi_J [0; 1])); (s2l "RB", into_ledger default_order (pi_J [2; 1]));
   (s2l "RAB", into_ledger default_order (stable_sort (by_key tp_date) (pi_J [0; 1; 2])));
   (s2l "AB", into_ledger default_order (stable_sort (by_key tp_date) (as_merged (wd_import [0; 1; 2]))))].
Definition pi_env : env := ex_env pi_codec.
Definition pi_runs : list rules_run :=
  [RulesRun default_order 7 (s2l "a") (s2l "ra"); RulesRun reverse_order 8 (s2l "b") (s2l "rb")].
Definition pi_imported (w : world) (runs : list (io import * str)) : world :=
  foldl (λ w r, steps w (import_cmd pi_env r.1 (Path r.2) false false w).1) w runs.
Definition pi_ruled (w : world) (rs : list rules_run) : world :=
  foldl (λ w r, steps w (rules_cmd pi_env rx_X rx_F (rr_order r) (rr_fuel r) (s2l "/r/main") (Path (rr_in r)) (Path (rr_out r)) w).1) w rs.
Lemma pi_imports_check w runs tss :
  (fix go w runs tss := match runs, tss with
    | [], [] => true
    | r :: runs, ts :: tss =>
        match r.1 w, import_cmd pi_env r.1 (Path r.2) false false w with
        | (_, Ok i), (es, Ok _) => bool_decide (im_transactions i = ts) && go (steps w es) runs tss
        | _, _ => false
        end
    | _, _ => false
    end) w runs tss = true → imports pi_env w runs tss (pi_imported w runs).
Proof.
  revert w tss. induction runs as [|[imp out] runs IH]; intros w [|ts tss] H; try done; [constructor|].
  cbn [fst snd] in H. destruct (imp w) as [es0 [[ns ts0]|e|]] eqn:E1; [|done..].
  destruct (import_cmd pi_env imp (Path out) false false w) as [es [[]|e|]] eqn:E2; [|done..].
  apply andb_true_iff in H as [H1 H2]. apply bool_decide_eq_true in H1. cbn [im_transactions] in H1. subst ts0.
  unfold pi_imported. cbn [foldl fst snd]. rewrite E2. cbn [fst]. econstructor; [exact E1|exact E2|]. by apply IH.
Qed.
Lemma pi_rulings_check w rs : Forall (λ r, hash_order_ok (rr_order r)) rs →
  (fix go w rs := match rs with
    | [] => true
    | r :: rs =>
        match rules_cmd pi_env rx_X rx_F (rr_order r) (rr_fuel r) (s2l "/r/main") (Path (rr_in r)) (Path (rr_out r)) w with
        | (es, Ok (Some _)) => go (steps w es) rs
        | _ => false
        end
    end) w rs = true → rulings pi_env rx_X rx_F (s2l "/r/main") w rs (pi_ruled w rs).
Proof.
  intros Hf. revert w. induction Hf as [|r rs Hho Hf IH]; intros w H; [constructor|].
  destruct (rules_cmd pi_env rx_X rx_F (rr_order r) (rr_fuel r) (s2l "/r/main") (Path (rr_in r)) (Path (rr_out r)) w) as [es [[[]|]|e|]] eqn:E; [|done..].
  unfold pi_ruled. cbn [foldl]. rewrite E. cbn [fst]. econstructor; [done|exact E|]. by apply IH.
Qed.
Definition pi_w1 : world := pi_imported wc_w (nw_run pi_env wc_V ex_dates ex_opts <$> wc_ss).
Definition pi_w2 : world := pi_ruled pi_w1 pi_runs.
Lemma pi_imports : imports pi_env wc_w (nw_run pi_env wc_V ex_dates ex_opts <$> wc_ss) wc_nw pi_w1.
Proof. apply pi_imports_check. vm_compute. reflexivity. Qed.
Lemma pi_rulings : rulings pi_env rx_X rx_F (s2l "/r/main") pi_w1 pi_runs pi_w2.
Proof.
  apply pi_rulings_check; [|vm_compute; reflexivity].
  apply Forall_cons. split; [exact default_order_ok|]. apply Forall_cons. split; [exact reverse_order_ok|done].
Qed.
Lemma pi_loads : load_from_path rx_F default_order 7 (s2l "/r/main") = Some (Ok pi_T).
Proof. vm_compute. reflexivity. Qed.
Lemma pi_loaded : rules_loaded rx_F (s2l "/r/main") pi_T.
Proof. eapply load_from_path_ok; [exact default_order_ok|exact rx_one|exact pi_loads]. Qed.
Lemma pi_leaves : leaves_fingerprints pi_T.
Proof. apply leaves_check. vm_compute. reflexivity. Qed.
Lemma pi_ruled_is w J : update_transactions rx_X default_order pi_T 7 (as_merged (wd_import w)) = Some (Ok (pi_J w)) →
  ruled rx_X pi_T (as_merged (wd_import w)) J → J = pi_J w.
Proof.
  intros H HJ. eapply ruled_det; [exact HJ|]. apply (c54_journal rx_X default_order); [exact default_order_ok|apply pi_loaded|by exists 7].
Qed.
Lemma pi_back w : e_parse pi_env (e_print pi_env (into_ledger default_order (pi_J w))) = Some (into_ledger default_order (pi_J w)) →
  Forall comments_writable_b (pi_J w) → Forall (λ tp, source_tag tp = None) (pi_J w) → reads_back pi_env (pi_J w).
Proof.
  intros H1 H2 H3. split.
  - intros ho Hho. by rewrite (into_ledger_order ho default_order _ Hho default_order_ok).
  - intros tp Htp. split; [by apply (writable_compute (pi_J w))|]. rewrite Forall_forall in H3. by apply H3.
Qed.
Lemma pi_reads_back : ∀ ts J, ts ∈ wc_nw → ruled rx_X pi_T (as_merged ts) J → reads_back pi_env J.
Proof.
  intros ts J Hts HJ. unfold wc_nw in Hts. apply elem_of_cons in Hts as [->|Hts%elem_of_list_singleton].
  - rewrite (pi_ruled_is [0; 1] J); [|vm_compute; reflexivity|exact HJ]. apply pi_back; [vm_compute; reflexivity|by_compute|by_compute].
  - subst ts. rewrite (pi_ruled_is [2; 1] J); [|vm_compute; reflexivity|exact HJ]. apply pi_back; [vm_compute; reflexivity|by_compute|by_compute].
Qed.
Lemma pi_prints : Forall (prints_back pi_env) wc_nw.
Proof. repeat (apply Forall_cons; split; [vm_compute; reflexivity|]); done. Qed.

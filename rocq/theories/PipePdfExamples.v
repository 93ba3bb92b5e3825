(** The PDF statements of PdfWorkExamples.v with rules applied, for the example beside C108. *)
From Verif Require Import MergeClaims.
From Verif Require Import Base Types SpecBase BaseProofs CommentModel MergeModel CmdModel FingerprintModel NwCsvModel PaypalModel
  CommentClaims CmdClaims ImportClaims EditClaims WindowClaims StatementClaims OcrModel PdfModel PdfClaims PdfExamples CommentExamples MergeExamples ImportExamples
  TestsImport WorkflowExamples CmdExamples RulesModel RulesClaims RulesProofs RulesLaws RulesLoad RulesCmd RulesExamples CmdIdem HeaderClaims ImporterModel
  WorkCmdClaims WorkCmd WorkCmdExamples PdfDaysClaims PdfDaysExamples PdfWorkClaims PdfWorkExamples PipeClaims Pipe PipeExamples.
Local Open Scope nat_scope.

Definition pq_J (doc : document) : list transaction_postings :=
  match update_transactions rx_X default_order pi_T 7 (as_merged (od_ts doc)) with Some (Ok J) => J | _ => [] end.
Definition pq_env : env := ex_env
  [(s2l "A", ledger_from_transactions (od_ts od_doc1)); (s2l "B", ledger_from_transactions (od_ts od_doc2));
   (s2l "RA", into_ledger default_order (pq_J od_doc1)); (s2l "RB", into_ledger default_order (pq_J od_doc2));
   (s2l "RAB", into_ledger default_order (stable_sort (by_key tp_date) (pq_J od_doc)))].
Definition imported_by (E : env) (w : world) (runs : list (io import * str)) : world :=
  foldl (λ w r, steps w (import_cmd E r.1 (Path r.2) false false w).1) w runs.
Definition ruled_by (E : env) (w : world) (rs : list rules_run) : world :=
  foldl (λ w r, steps w (rules_cmd E rx_X rx_F (rr_order r) (rr_fuel r) (s2l "/r/main") (Path (rr_in r)) (Path (rr_out r)) w).1) w rs.
Lemma imported_check E w runs tss :
  (fix go w runs tss := match runs, tss with
    | [], [] => true
    | r :: runs, ts :: tss =>
        match r.1 w, import_cmd E r.1 (Path r.2) false false w with
        | (_, Ok i), (es, Ok _) => bool_decide (im_transactions i = ts) && go (steps w es) runs tss
        | _, _ => false
        end
    | _, _ => false
    end) w runs tss = true → imports E w runs tss (imported_by E w runs).
Proof.
  revert w tss. induction runs as [|[imp out] runs IH]; intros w [|ts tss] H; try done; [constructor|].
  cbn [fst snd] in H. destruct (imp w) as [es0 [[ns ts0]|e|]] eqn:E1; [|done..].
  destruct (import_cmd E imp (Path out) false false w) as [es [[]|e|]] eqn:E2; [|done..].
  apply andb_true_iff in H as [H1 H2]. apply bool_decide_eq_true in H1. cbn [im_transactions] in H1. subst ts0.
  unfold imported_by. cbn [foldl fst snd]. rewrite E2. cbn [fst]. econstructor; [exact E1|exact E2|]. by apply IH.
Qed.
Lemma ruled_check E w rs : Forall (λ r, hash_order_ok (rr_order r)) rs →
  (fix go w rs := match rs with
    | [] => true
    | r :: rs =>
        match rules_cmd E rx_X rx_F (rr_order r) (rr_fuel r) (s2l "/r/main") (Path (rr_in r)) (Path (rr_out r)) w with
        | (es, Ok (Some _)) => go (steps w es) rs
        | _ => false
        end
    end) w rs = true → rulings E rx_X rx_F (s2l "/r/main") w rs (ruled_by E w rs).
Proof.
  intros Hf. revert w. induction Hf as [|r rs Hho Hf IH]; intros w H; [constructor|].
  destruct (rules_cmd E rx_X rx_F (rr_order r) (rr_fuel r) (s2l "/r/main") (Path (rr_in r)) (Path (rr_out r)) w) as [es [[[]|]|e|]] eqn:Er; [|done..].
  unfold ruled_by. cbn [foldl]. rewrite Er. cbn [fst]. econstructor; [done|exact Er|]. by apply IH.
Qed.
Definition pq_w1 : world := imported_by pq_env pw_w (pdf_run od_env ex_cur <$> pw_ss).
Definition pq_w2 : world := ruled_by pq_env pq_w1 pi_runs.
Lemma pq_imports : imports pq_env pw_w (pdf_run od_env ex_cur <$> pw_ss) pw_tss pq_w1.
Proof. apply imported_check. vm_compute. reflexivity. Qed.
Lemma pq_rulings : rulings pq_env rx_X rx_F (s2l "/r/main") pq_w1 pi_runs pq_w2.
Proof.
  apply ruled_check; [|vm_compute; reflexivity].
  apply Forall_cons. split; [exact default_order_ok|]. apply Forall_cons. split; [exact reverse_order_ok|done].
Qed.
Lemma pq_ruled_is doc J : update_transactions rx_X default_order pi_T 7 (as_merged (od_ts doc)) = Some (Ok (pq_J doc)) →
  ruled rx_X pi_T (as_merged (od_ts doc)) J → J = pq_J doc.
Proof.
  intros H HJ. eapply ruled_det; [exact HJ|]. apply (c54_journal rx_X default_order); [exact default_order_ok|apply pi_loaded|by exists 7].
Qed.
Lemma pq_back doc : e_parse pq_env (e_print pq_env (into_ledger default_order (pq_J doc))) = Some (into_ledger default_order (pq_J doc)) →
  Forall comments_writable_b (pq_J doc) → Forall (λ tp, source_tag tp = None) (pq_J doc) → reads_back pq_env (pq_J doc).
Proof.
  intros H1 H2 H3. split.
  - intros ho Hho. by rewrite (into_ledger_order ho default_order _ Hho default_order_ok).
  - intros tp Htp. split; [by apply (writable_compute (pq_J doc))|]. rewrite Forall_forall in H3. by apply H3.
Qed.
Lemma pq_reads_back : ∀ ts J, ts ∈ pw_tss → ruled rx_X pi_T (as_merged ts) J → reads_back pq_env J.
Proof.
  intros ts J Hts HJ. unfold pw_tss in Hts. apply elem_of_cons in Hts as [->|Hts%elem_of_list_singleton].
  - rewrite (pq_ruled_is od_doc1 J); [|vm_compute; reflexivity|exact HJ]. apply pq_back; [vm_compute; reflexivity|by_compute|by_compute].
  - subst ts. rewrite (pq_ruled_is od_doc2 J); [|vm_compute; reflexivity|exact HJ]. apply pq_back; [vm_compute; reflexivity|by_compute|by_compute].
Qed.
Lemma pq_prints : Forall (prints_back pq_env) pw_tss.
Proof. repeat (apply Forall_cons; split; [vm_compute; reflexivity|]); done. Qed.

(** For the examples beside C123. *)
From Verif Require Import MergeClaims.
From Verif Require Import Base Types SpecBase BaseProofs CommentModel MergeModel CmdModel FingerprintModel NwCsvModel TzModel PaypalModel
  CommentClaims CmdClaims ImportClaims EditClaims WindowClaims StatementClaims CommentExamples MergeExamples ImportExamples TestsImport WorkflowExamples CmdExamples
  RulesModel RulesClaims RulesProofs RulesLaws RulesLoad RulesCmd RulesExamples CmdIdem HeaderClaims ImporterModel WorkCmdClaims WorkCmd WorkCmdExamples PipeClaims Pipe PipeExamples RulesOrderClaims RulesOrder ImportProofs.
Local Open Scope nat_scope.

Lemma ro_merged_back : reads_back pi_env (stable_sort (by_key tp_date) (as_merged (wd_import [0; 1; 2]))).
Proof.
  split.
  - intros ho Hho. rewrite (into_ledger_order ho default_order _ Hho default_order_ok). vm_compute. reflexivity.
  - intros tp Htp. split.
    + refine (writable_compute (stable_sort (by_key tp_date) (as_merged (wd_import [0; 1; 2]))) _ tp Htp). by_compute.
    + assert (Forall (λ tp, source_tag tp = None) (stable_sort (by_key tp_date) (as_merged (wd_import [0; 1; 2])))) as H by by_compute.
      rewrite Forall_forall in H. by apply H.
Qed.

(** A posting that has a tag in the second set only, and a rule that looks at it. *)
Definition ro_T : table := {[ s2l "start" := [Rule (PHasFlagTag (s2l "late")) (ASetAccount food) RContinue] ]}.
Definition ro_A : list transaction_postings := [ex_tp day1 (s2l "shop") [ex_post bank (-500) [s2l "fp-a"]]].
Definition ro_B : list transaction_postings := [ex_tp day1 (s2l "shop") [ex_post bank (-500) [s2l "fp-a"; s2l "late"]]].
Definition ro_B' : list transaction_postings := [ex_tp day1 (s2l "shop") [ex_post food (-500) [s2l "fp-a"; s2l "late"]]].
Definition ro_m (sets : list (list transaction_postings)) : merger := foldl (λ m s, (merge default_order m s).1) merger_new sets.
Lemma ro_run A B : (merge default_order merger_new A).2 = Ok [] → (merge default_order (merge default_order merger_new A).1 B).2 = Ok [] →
  clean_run merger_new (zip [default_order; default_order] [A; B]) (ro_m [A; B]).
Proof.
  intros H1 H2. cbn [zip zip_with]. econstructor; [exact default_order_ok|by apply merge_eq|].
  econstructor; [exact default_order_ok|by apply merge_eq|]. constructor.
Qed.
Lemma ro_leaves : leaves_fingerprints ro_T.
Proof. apply leaves_check. vm_compute. reflexivity. Qed.
Lemma ro_ruled X tps J : update_transactions X default_order ro_T 2 tps = Some (Ok J) → ruled X ro_T tps J.
Proof. intros H. apply (c54_journal X default_order); [exact default_order_ok|by eexists|by exists 2]. Qed.
Lemma ro_differs X : is_Some (ro_T !! s2l "start") ∧ leaves_fingerprints ro_T ∧
  Forall2 (ruled X ro_T) [ro_A; ro_B] [ro_A; ro_B'] ∧ ¬ either_way X ro_T [default_order; default_order] [ro_A; ro_B] [ro_A; ro_B'].
Proof.
  split; [by eexists|]. split; [exact ro_leaves|]. split.
  { constructor; [|constructor; [|constructor]]; apply ro_ruled; vm_compute; reflexivity. }
  intros (m & m' & Hm & Hm' & H).
  assert (∀ A B m, (merge default_order merger_new A).2 = Ok [] → (merge default_order (merge default_order merger_new A).1 B).2 = Ok [] →
    clean_run merger_new (zip [default_order; default_order] [A; B]) m → m = ro_m [A; B]) as Hdet.
  { clear. intros A B m H1 H2 H. cbn [zip zip_with] in H. inversion H as [|? ? ? m1 ? ? _ E1 H']; subst. inversion H' as [|? ? ? m2 ? ? _ E2 H'']; subst.
    inversion H''; subst. unfold ro_m. cbn [foldl]. rewrite E1. cbn [fst]. by rewrite E2. }
  apply Hdet in Hm as ->; [|vm_compute; reflexivity..]. apply Hdet in Hm' as ->; [|vm_compute; reflexivity..].
  destruct (H default_order default_order default_order_ok default_order_ok) as (out & out' & H1 & H2 & H3).
  assert (build default_order (ro_m [ro_A; ro_B]) = Ok ro_B) as E1 by by_compute.
  assert (build default_order (ro_m [ro_A; ro_B']) = Ok ro_B) as E2 by by_compute.
  rewrite E1 in H1. rewrite E2 in H2. apply Ok_inj in H1 as <-. apply Ok_inj in H2 as <-.
  assert (ruled X ro_T ro_B ro_B') as H4 by (apply ro_ruled; vm_compute; reflexivity).
  pose proof (ruled_det _ _ _ _ _ H3 H4) as E. revert E. vm_compute. discriminate.
Qed.
Lemma c123_matters X : ∃ T raw Js hos, is_Some (T !! s2l "start") ∧ leaves_fingerprints T ∧
  Forall2 (ruled X T) raw Js ∧ Forall hash_order_ok hos ∧ length hos = length raw ∧
  (∃ m, clean_run merger_new (zip hos raw) m) ∧ (∃ m, clean_run merger_new (zip hos Js) m) ∧ ¬ either_way X T hos raw Js.
Proof.
  destruct (ro_differs X) as (H1 & H2 & H3 & H4). exists ro_T, [ro_A; ro_B], [ro_A; ro_B'], [default_order; default_order].
  split; [done|]. split; [done|]. split; [done|]. split; [repeat (apply Forall_cons; split; [exact default_order_ok|]); by apply Forall_nil|].
  split; [done|]. split; [eexists; apply ro_run; vm_compute; reflexivity|]. split; [eexists; apply ro_run; vm_compute; reflexivity|done].
Qed.

(** A journal with a history. *)
From Verif Require Import MergeClaims.
From stdpp Require Import list gmap.
From Verif Require Import Base Types SpecBase BaseProofs CommentModel MergeModel MergeLemmas EditClaims WindowClaims KeptClaims HistoryClaims
  LivedClaims CommentExamples MergeExamples CmdModel CommentClaims CmdClaims CmdExamples HeaderClaims ImportExamples WorkflowExamples.
Local Open Scope nat_scope.

Lemma taken_check S un T : T ⊆+ S →
  forallb (λ tp, negb (bool_decide (tp_posts tp = [])) && forallb (λ u, forallb (λ p, forallb (λ q,
    forallb (λ f, negb (bool_decide (f ∈ fps_of p))) (fps_of q)) (tp_posts u)) (tp_posts tp)) un) T = true → taken S un T.
Proof.
  intros Hs H. split; [done|]. intros tp Htp. rewrite forallb_forall in H. specialize (H tp (proj1 (elem_of_list_In _ _) Htp)).
  apply andb_true_iff in H as [H1 H]. apply negb_true_iff, bool_decide_eq_false in H1. split; [done|].
  intros u p q Hu Hp Hq (f & Hfq & Hfp). rewrite forallb_forall in H. specialize (H u (proj1 (elem_of_list_In _ _) Hu)).
  rewrite forallb_forall in H. specialize (H p (proj1 (elem_of_list_In _ _) Hp)).
  rewrite forallb_forall in H. specialize (H q (proj1 (elem_of_list_In _ _) Hq)).
  rewrite forallb_forall in H. apply fps_of_spec in Hfq, Hfp.
  specialize (H f (proj1 (elem_of_list_In _ _) Hfq)). apply negb_true_iff, bool_decide_eq_false in H. done.
Qed.

(** The journal starts with three payments written by hand, two of them alike. *)
Definition lv_hand : list transaction_postings :=
  [ex_tp day1 (s2l "one") [ex_post bank (-500) [s2l "fp-h1"]; ex_post food 500 [s2l "fp-h2"]];
   ex_tp day1 (s2l "two") [ex_post bank (-500) [s2l "fp-h3"]; ex_post food 500 [s2l "fp-h4"]];
   ex_tp day2 (s2l "cafe, by hand") [ex_post bank (-300) [s2l "fp-h5"]; ex_post food 300 [s2l "fp-h6"]]].
(** The bank reports one of the two, the third, and one that is not there. *)
Definition lv_bus := ex_tp day2 (s2l "bus") [ex_post bank (-200) [s2l "fp-d1"]; ex_post unknown 200 [s2l "fp-d2"; s2l "unknown-account"]].
Definition lv_S : list transaction_postings := [ex_t1; ex_t3; lv_bus].
Definition lv_m1 : merger := (merge default_order merger_new lv_hand).1.
Definition lv_un : list transaction_postings := rok (merge reverse_order lv_m1 lv_S).2 [].
Definition lv_m2 : merger := (merge reverse_order lv_m1 lv_S).1.
Definition lv_out : list transaction_postings := rok (build default_order lv_m2) [].
(** Everything is edited. *)
Definition lv_J : list transaction_postings := wf_edit <$> lv_out.

Lemma lv_kept1 : lived [[ex_t3; lv_bus]] lv_out.
Proof.
  refine (lived_merge [] lv_hand default_order [] [(reverse_order, lv_S, lv_un)] lv_m2 default_order lv_out [[ex_t3; lv_bus]] _ default_order_ok _ _ _).
  - apply lived_start. apply journal_check; [vm_compute; reflexivity|by_compute|vm_compute; reflexivity].
  - eapply (mrun_cons _ _ _ _ lv_m1); [exact default_order_ok|apply merge_eq; by_compute|].
    eapply (mrun_cons _ _ _ _ lv_m2); [exact reverse_order_ok|apply merge_eq; by_compute|]. constructor.
  - by_compute.
  - apply List.Forall2_cons; [|apply List.Forall2_nil]. unfold run_set, run_unmerged. cbn [fst snd]. apply taken_check.
    + apply submseteq_cons. reflexivity.
    + vm_compute. reflexivity.
Qed.
Lemma lv_edited : edited lv_out lv_J.
Proof.
  exists (λ a b, (a, b)). split_and!; cbn [fst snd]; [|done|by intros ? ? ? ? ? ? ? ? _ _ _ _ [= -> ->]].
  intros a b tp p Ha Hb. exists (wf_edit tp). eexists. split_and!.
  - unfold lv_J. rewrite list_lookup_fmap, Ha. done.
  - cbn [wf_edit tp_posts ex_tp]. rewrite list_lookup_fmap, Hb. reflexivity.
  - intros f [Hf Ht]. split; [done|]. unfold has_tag in *. cbn [pi_comment tags]. apply elem_of_union. by right.
Qed.
Lemma lv_lived : lived [[ex_t3; lv_bus]] lv_J.
Proof.
  eapply lived_edit; [exact lv_kept1|exact lv_edited|]. apply journal_check; [vm_compute; reflexivity|by_compute|vm_compute; reflexivity].
Qed.
Definition lv_desc (tp : transaction_postings) : date * str := (tp_date tp, t_description (ti_raw (tp_trn tp))).
Lemma lv_shape : length lv_un = 1 ∧
  lv_desc <$> lv_out = [(day1, s2l "one"); (day1, s2l "two"); (day2, s2l "cafe, by hand"); (day2, s2l "bus")].
Proof. apply conj; vm_compute; reflexivity. Qed.
(** The bus again, then the cafe and the bus. *)
Definition lv_Ss : list (list transaction_postings) := [[lv_bus]; [lv_bus; ex_t3]].
Lemma lv_again S : S ∈ lv_Ss → ∃ T, T ∈ [[ex_t3; lv_bus]] ∧ S ⊆+ T.
Proof.
  intros [->|[->|[]%elem_of_nil]%elem_of_cons]%elem_of_cons; exists [ex_t3; lv_bus]; (split; [left|]).
  - apply submseteq_cons. reflexivity.
  - apply Permutation_submseteq, perm_swap.
Qed.

(** With files. *)
Definition lq_E : env := ex_env [(s2l "J", into_ledger default_order lv_J); (s2l "A", into_ledger default_order [lv_bus]);
  (s2l "B", into_ledger default_order [lv_bus; ex_t3]); (s2l "H", into_ledger default_order lv_hand); (s2l "S", into_ledger default_order lv_S);
  (s2l "OUT", into_ledger default_order lv_out)].
Definition lq_w : world := World {[ s2l "journal" := s2l "J"; s2l "a" := s2l "A"; s2l "b" := s2l "B"; s2l "hand" := s2l "H"; s2l "bank" := s2l "S" ]} ∅ [] [].
Lemma lq_files : journals lq_E lq_w [Path (s2l "journal"); Path (s2l "a"); Path (s2l "b")] (lv_J :: lv_Ss) lq_w.
Proof.
  assert (lv_J = transaction_postings_of <$> ledger_trns (into_ledger default_order lv_J)) as E1 by by_compute.
  assert ([lv_bus] = transaction_postings_of <$> ledger_trns (into_ledger default_order [lv_bus])) as E2 by by_compute.
  assert ([lv_bus; ex_t3] = transaction_postings_of <$> ledger_trns (into_ledger default_order [lv_bus; ex_t3])) as E3 by by_compute.
  unfold lv_Ss. rewrite E1, E2, E3.
  eapply journals_cons; [| | |eapply journals_cons; [| | |eapply journals_cons; [| | |constructor]]].
  - eapply reads_path; [done|vm_compute; reflexivity|vm_compute; reflexivity].
  - unfold supported. by_compute.
  - apply Forall_forall. by_compute.
  - eapply reads_path; [done|vm_compute; reflexivity|vm_compute; reflexivity].
  - unfold supported. by_compute.
  - apply Forall_forall. by_compute.
  - eapply reads_path; [done|vm_compute; reflexivity|vm_compute; reflexivity].
  - unfold supported. by_compute.
  - apply Forall_forall. by_compute.
Qed.
Lemma lq_writable f : writable lq_E f.
Proof. by destruct f. Qed.
Lemma lq_files2 : journals lq_E lq_w [Path (s2l "hand"); Path (s2l "bank")] [lv_hand; lv_S] lq_w.
Proof.
  assert (lv_hand = transaction_postings_of <$> ledger_trns (into_ledger default_order lv_hand)) as E1 by by_compute.
  assert (lv_S = transaction_postings_of <$> ledger_trns (into_ledger default_order lv_S)) as E2 by by_compute.
  rewrite E1, E2. eapply journals_cons; [| | |eapply journals_cons; [| | |constructor]].
  - eapply reads_path; [done|vm_compute; reflexivity|vm_compute; reflexivity].
  - unfold supported. by_compute.
  - apply Forall_forall. by_compute.
  - eapply reads_path; [done|vm_compute; reflexivity|vm_compute; reflexivity].
  - unfold supported. by_compute.
  - apply Forall_forall. by_compute.
Qed.
Definition lq_run := merge_cmd lq_E default_order [Path (s2l "hand"); Path (s2l "bank")] (Some (Path (s2l "rest"))) (Path (s2l "hand")) lq_w.
Lemma lq_result : lq_run.2 = Ok tt ∧ w_files (steps lq_w lq_run.1) !! s2l "hand" = Some (s2l "OUT") ∧
  is_Some (w_files (steps lq_w lq_run.1) !! s2l "rest").
Proof. apply conj; [vm_compute; reflexivity|]. apply conj; [vm_compute; reflexivity|]. vm_compute. eexists. reflexivity. Qed.

(** The bus of LivedExamples.v is deleted, and comes back. *)
From Verif Require Import MergeClaims.
From stdpp Require Import list gmap.
From Verif Require Import Base Types SpecBase BaseProofs CommentModel MergeModel MergeLemmas EditClaims KeptClaims HistoryClaims
  LivedClaims ReturnClaims Return CommentExamples MergeExamples CmdModel CommentClaims CmdClaims CmdExamples HeaderClaims ImportExamples WorkflowExamples LivedExamples.
Local Open Scope nat_scope.

Definition rt_J1 : list transaction_postings := take 3 lv_J.
Definition rt_S : list transaction_postings := [lv_bus; ex_t3].
Lemma rt_deleted : sublist rt_J1 lv_J ∧ rt_J1 ≠ lv_J.
Proof.
  split; [apply sublist_take|]. intros E%(f_equal length). revert E. vm_compute. discriminate.
Qed.
Lemma rt_part : rt_S ⊆+ [ex_t3; lv_bus].
Proof. apply Permutation_submseteq, perm_swap. Qed.
Lemma rt_not_mistaken tp : tp ∈ rt_S → gone rt_J1 tp → not_mistaken rt_J1 tp.
Proof.
  intros Htp _ t p q Ht Hp Hq _ Hs%matches_spec.
  assert (forallb (λ tp, forallb (λ t, forallb (λ p, forallb (λ q, negb (matches q p)) (tp_posts t)) (tp_posts tp)) rt_J1) rt_S = true) as H
    by (vm_compute; reflexivity).
  rewrite forallb_forall in H. specialize (H tp (proj1 (elem_of_list_In _ _) Htp)).
  rewrite forallb_forall in H. specialize (H t (proj1 (elem_of_list_In _ _) Ht)).
  rewrite forallb_forall in H. specialize (H p (proj1 (elem_of_list_In _ _) Hp)).
  rewrite forallb_forall in H. specialize (H q (proj1 (elem_of_list_In _ _) Hq)). apply negb_true_iff in H. congruence.
Qed.
Lemma rt_gone : gone rt_J1 lv_bus ∧ ¬ gone rt_J1 ex_t3.
Proof. split; [apply goneb_spec; vm_compute; reflexivity|]. rewrite <- goneb_spec. vm_compute. discriminate. Qed.
Definition rt_out : list transaction_postings :=
  rok (build default_order (merge default_order (merge default_order merger_new rt_J1).1 rt_S).1) [].
Lemma rt_result : lv_desc <$> rt_out = [(day2, s2l "mine"); (day2, s2l "bus"); ((2020%Z, 1%N, 3%N), s2l "mine"); ((2020%Z, 1%N, 3%N), s2l "mine")].
Proof. vm_compute. reflexivity. Qed.
(** With files. *)
Definition rt_E : env := ex_env [(s2l "J", into_ledger default_order rt_J1); (s2l "S", into_ledger default_order rt_S);
  (s2l "OUT", into_ledger default_order rt_out)].
Definition rt_w : world := World {[ s2l "journal" := s2l "J"; s2l "statement" := s2l "S" ]} ∅ [] [].
Definition rt_run := merge_cmd rt_E default_order [Path (s2l "journal"); Path (s2l "statement")] None (Path (s2l "journal")) rt_w.
Lemma rt_files : journals rt_E rt_w [Path (s2l "journal"); Path (s2l "statement")] [rt_J1; rt_S] rt_w.
Proof.
  assert (rt_J1 = transaction_postings_of <$> ledger_trns (into_ledger default_order rt_J1)) as E1 by by_compute.
  assert (rt_S = transaction_postings_of <$> ledger_trns (into_ledger default_order rt_S)) as E2 by by_compute.
  rewrite E1, E2. eapply journals_cons; [| | |eapply journals_cons; [| | |constructor]].
  - eapply reads_path; [done|vm_compute; reflexivity|vm_compute; reflexivity].
  - unfold supported. by_compute.
  - apply Forall_forall. by_compute.
  - eapply reads_path; [done|vm_compute; reflexivity|vm_compute; reflexivity].
  - unfold supported. by_compute.
  - apply Forall_forall. by_compute.
Qed.
Lemma rt_writable f : writable rt_E f.
Proof. by destruct f. Qed.
Lemma rt_written : rt_run.2 = Ok tt ∧ w_files (steps rt_w rt_run.1) !! s2l "journal" = Some (s2l "OUT").
Proof. apply conj; vm_compute; reflexivity. Qed.
(** A payment written by hand takes its place: then it does not come back, but is
    merged into that. *)
Definition rt_J2 : list transaction_postings :=
  rt_J1 ++ [ex_tp day2 (s2l "bus, by hand") [ex_post bank (-200) [s2l "fp-h7"]; ex_post food 200 [s2l "fp-h8"]]].
Lemma rt_mistaken : journal_ok rt_J2 ∧ gone rt_J2 lv_bus ∧
  rmap length (build default_order (merge default_order (merge default_order merger_new rt_J2).1 rt_S).1) = Ok (length rt_J2).
Proof.
  split; [apply journal_check; [vm_compute; reflexivity|by_compute|vm_compute; reflexivity]|].
  split; [apply goneb_spec; vm_compute; reflexivity|]. vm_compute. reflexivity.
Qed.

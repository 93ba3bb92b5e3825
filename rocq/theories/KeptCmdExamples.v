(** The second month of KeptExamples.v with files. *)
From Verif Require Import Base Types CommentModel MergeModel CmdModel SpecBase MergeSpec MergeClaims MergeProofs MergeLemmas MergeExamples CommentClaims CmdClaims
  CmdExamples HeaderClaims EditClaims WindowClaims WorkflowExamples KeptClaims KeptExamples.
Local Open Scope nat_scope.

Definition kq_l1 : ledger := into_ledger default_order kp_J1.
Definition kq_l2 : ledger := into_ledger default_order [ex_t1; ex_t2; ex_t3].
Definition kq_E : env := ex_env [(s2l "J", kq_l1); (s2l "S", kq_l2); (s2l "OUT", into_ledger default_order kp_out2)].
Definition kq_w : world := World {[ s2l "journal" := s2l "J"; s2l "statement" := s2l "S" ]} ∅ [] [].
(** The journal is written in place. *)
Definition kq_run := merge_cmd kq_E default_order [Path (s2l "journal"); Path (s2l "statement")] None (Path (s2l "journal")) kq_w.
Lemma kq_files : journals kq_E kq_w [Path (s2l "journal"); Path (s2l "statement")] [kp_J1; window wp_parts [0; 1]] kq_w.
Proof.
  assert (kp_J1 = transaction_postings_of <$> ledger_trns kq_l1) as E1 by by_compute.
  assert (window wp_parts [0; 1] = transaction_postings_of <$> ledger_trns kq_l2) as E2 by by_compute.
  rewrite E1, E2. eapply journals_cons; [| | |eapply journals_cons; [| | |constructor]].
  - eapply reads_path; [done|vm_compute; reflexivity|vm_compute; reflexivity].
  - unfold supported. by_compute.
  - apply Forall_forall. by_compute.
  - eapply reads_path; [done|vm_compute; reflexivity|vm_compute; reflexivity].
  - unfold supported. by_compute.
  - apply Forall_forall. by_compute.
Qed.
Lemma kq_writable f : writable kq_E f.
Proof. by destruct f. Qed.
Lemma kq_result : kq_run.2 = Ok tt ∧ w_files (steps kq_w kq_run.1) !! s2l "journal" = Some (s2l "OUT").
Proof. apply conj; vm_compute; reflexivity. Qed.

(** C143: what is handed back leaves no trace. *)
From Verif Require Import MergeClaims.
From Verif Require Import Base Types SpecBase BaseProofs CommentModel MergeModel CmdModel MergeSpec
  CommentClaims CmdClaims CommentExamples MergeExamples CmdExamples HeaderClaims HistoryClaims AccountedClaims HandedClaims AsideExamples Handed.
Local Open Scope nat_scope.

(** C143: [back] tells which transactions of the set were handed back.  Merging the
    set without them has the same effect and hands back nothing; merging only them
    hands them back in the same way and has no effect. *)
Theorem C143_no_trace ho m s m' un :
  hash_order_ok ho → reachable m → merge ho m s = (m', Ok un) →
  ∃ back, Forall2 returned_unmerged (handed back s) un ∧
    merge ho m (kept_back back s) = (m', Ok []) ∧ merge ho m (handed back s) = (m, Ok un).
Proof. exact (c143_merge ho m s m' un). Qed.
Print Assumptions C143_no_trace.

(** So in any history: the same sets without what was handed back give the same
    journal, and nothing is handed back. *)
Theorem C143_history ho m sets un m' :
  hash_order_ok ho → reachable m → merges ho m sets un m' →
  ∃ back, Forall2 returned_unmerged (all_handed back sets) un ∧ merges ho m (all_kept back sets) [] m'.
Proof. exact (c143_history ho m sets un m'). Qed.
Print Assumptions C143_history.

(** And merging the last sets again, without what was handed back, changes nothing. *)
Theorem C143_again ho a b un m :
  hash_order_ok ho → merges ho merger_new (a ++ b) un m →
  ∃ back, Forall2 returned_unmerged (all_handed back (a ++ b)) un ∧
    merges ho m (all_kept (λ r, back (length a + r)) b) [] m.
Proof. exact (c143_again ho a b un m). Qed.
Print Assumptions C143_again.

(** The command: on files without what was handed back it writes the same text to
    its output and no unmerged file. *)
Theorem C143_command E ho inputs um output w tpss w0 es :
  hash_order_ok ho → journals E w inputs tpss w0 → writable E output → (∀ f, um = Some f → writable E f) →
  (um = Some Stdio → output ≠ Stdio) →
  merge_cmd E ho inputs um output w = (es, Ok tt) →
  ∃ un text back, holds w (steps w es) output text ∧ Forall2 returned_unmerged (all_handed back tpss) un ∧
    (∃ m, merges ho merger_new tpss un m) ∧
    ∀ ho2 inputs2 um2 output2 w2 w02, hash_order_ok ho2 → journals E w2 inputs2 (all_kept back tpss) w02 →
      writable E output2 → (∀ f, um2 = Some f → writable E f) →
      ∃ es2, merge_cmd E ho2 inputs2 um2 output2 w2 = (es2, Ok tt) ∧ holds w2 (steps w2 es2) output2 text ∧
        ∀ p, Path p ≠ output2 → same_file w2 (steps w2 es2) p.
Proof. exact (c143_command E ho inputs um output w tpss w0 es). Qed.
Print Assumptions C143_command.

(** Two of the five transactions are handed back, one as it is ambiguous and one as
    it has no postings; the others change the journal. *)
Definition hd_set : list transaction_postings := [ex_u1; ex_u4; ex_u2; ex_u5; ex_u3].
Definition hd_back (x : nat) : bool := bool_decide (x = 1 ∨ x = 3).
Example C143_ex : ∃ un, merge default_order ex_m0 hd_set = ((merge default_order ex_m0 hd_set).1, Ok un) ∧
  length un = 2 ∧ un ≠ handed hd_back hd_set ∧ handed hd_back hd_set = [ex_u4; ex_u5] ∧ kept_back hd_back hd_set = ex_s1 ∧
  build default_order (merge default_order ex_m0 hd_set).1 ≠ build default_order ex_m0.
Proof.
  exists (match (merge default_order ex_m0 hd_set).2 with Ok un => un | _ => [] end). split_and!.
  - apply merge_eq. by_compute.
  - by_compute.
  - by_compute.
  - reflexivity.
  - reflexivity.
  - by_compute.
Qed.
(** The same as files: the run writes an unmerged file, and there is a file with the
    rest of the statement. *)
Definition hd_E : env := ex_env [(s2l "CUR", into_ledger default_order ex_s0); (s2l "ALL", into_ledger default_order (ex_u4 :: ex_s1));
  (s2l "S", into_ledger default_order ex_s1); (s2l "OUT", into_ledger default_order as_out)].
Definition hd_w : world := World {[ s2l "cur" := s2l "CUR"; s2l "all" := s2l "ALL"; s2l "s" := s2l "S" ]} ∅ [] [].
Lemma hd_sourceless : Forall (λ l, Forall (λ t, source_tag (transaction_postings_of t) = None) (ledger_trns (into_ledger default_order l)))
  [ex_s0; ex_u4 :: ex_s1; ex_s1].
Proof. by_compute. Qed.
Lemma hd_journals : journals hd_E hd_w [Path (s2l "cur"); Path (s2l "all")] [as_read ex_s0; as_read (ex_u4 :: ex_s1)] hd_w ∧
  journals hd_E hd_w [Path (s2l "cur"); Path (s2l "s")] [as_read ex_s0; as_read ex_s1] hd_w.
Proof.
  pose proof hd_sourceless as H. rewrite !Forall_cons in H. destruct H as (T0 & T1 & T2 & _).
  rewrite Forall_forall in T0. rewrite Forall_forall in T1. rewrite Forall_forall in T2.
  split.
  - refine (journals_cons _ _ _ (into_ledger default_order ex_s0) hd_w _ _ _ _ (as_supported _) T0 _).
    + apply (reads_path _ _ _ (s2l "CUR")); [done|vm_compute; reflexivity|vm_compute; reflexivity].
    + refine (journals_cons _ _ _ (into_ledger default_order (ex_u4 :: ex_s1)) hd_w _ _ _ _ (as_supported _) T1 _); [|constructor].
      apply (reads_path _ _ _ (s2l "ALL")); [done|vm_compute; reflexivity|vm_compute; reflexivity].
  - refine (journals_cons _ _ _ (into_ledger default_order ex_s0) hd_w _ _ _ _ (as_supported _) T0 _).
    + apply (reads_path _ _ _ (s2l "CUR")); [done|vm_compute; reflexivity|vm_compute; reflexivity].
    + refine (journals_cons _ _ _ (into_ledger default_order ex_s1) hd_w _ _ _ _ (as_supported _) T2 _); [|constructor].
      apply (reads_path _ _ _ (s2l "S")); [done|vm_compute; reflexivity|vm_compute; reflexivity].
Qed.
Example C143_command_ex :
  let run := merge_cmd hd_E default_order [Path (s2l "cur"); Path (s2l "all")] (Some (Path (s2l "u"))) (Path (s2l "out")) hd_w in
  let run2 := merge_cmd hd_E reverse_order [Path (s2l "cur"); Path (s2l "s")] None (Path (s2l "out")) hd_w in
  (* the hypotheses *)
  journals hd_E hd_w [Path (s2l "cur"); Path (s2l "all")] [as_read ex_s0; as_read (ex_u4 :: ex_s1)] hd_w ∧
  journals hd_E hd_w [Path (s2l "cur"); Path (s2l "s")] (all_kept (λ r x, bool_decide (r = 1 ∧ x = 0)) [as_read ex_s0; as_read (ex_u4 :: ex_s1)]) hd_w ∧
  (∀ f, writable hd_E f) ∧ run.2 = Ok tt ∧
  (* something was handed back, and the output is the same *)
  is_Some (w_files (steps hd_w run.1) !! s2l "u") ∧
  w_files (steps hd_w run.1) !! s2l "out" = Some (s2l "OUT") ∧ w_files (steps hd_w run2.1) !! s2l "out" = Some (s2l "OUT").
Proof.
  cbv zeta. destruct hd_journals as [H1 H2]. split_and!.
  - exact H1.
  - change (all_kept _ _) with [as_read ex_s0; as_read ex_s1]. exact H2.
  - by intros [].
  - by_compute.
  - by_compute.
  - by_compute.
  - by_compute.
Qed.

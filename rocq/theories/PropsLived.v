(** What was merged stays recognised, in any history of merges and edits (C136).  The
    vocabulary is in LivedClaims.v, EditClaims.v and KeptClaims.v. *)
From Verif Require Import MergeClaims.
From Verif Require Import Base Types SpecBase BaseProofs CommentModel MergeModel CmdModel RulesModel CmdClaims HeaderClaims
  EditClaims KeptClaims HistoryClaims LivedClaims Lived LivedCmd MergeExamples RulesExamples WorkflowExamples LivedExamples.
Local Open Scope nat_scope.

(** C136: every transaction that was ever merged and not handed back is in the
    journal exactly once. *)
Theorem C136_once sets J T tp : lived sets J → T ∈ sets → tp ∈ T → has_once J tp.
Proof. exact (lived_once sets J T tp). Qed.
Print Assumptions C136_once.
(** What old statements had can be merged again, all of it or some, in any order: nothing is
    handed back and nothing added; the journal keeps its headers, and its postings,
    at most refined. *)
Theorem C136_again sets J Ss ho hos : lived sets J → (∀ S, S ∈ Ss → ∃ T, T ∈ sets ∧ S ⊆+ T) →
  hash_order_ok ho → Forall hash_order_ok hos → length hos = length Ss →
  ∃ m J', clean_run merger_new ((ho, J) :: zip hos Ss) m ∧ Forall2 trn_refines J J' ∧
    ∀ hb, hash_order_ok hb → build hb m = Ok (stable_sort (by_key tp_date) J').
Proof. exact (lived_again sets J Ss ho hos). Qed.
Print Assumptions C136_again.
(** Rules that leave fingerprints alone may be among the edits. *)
Theorem C136_rules sets J X T ho n J' : lived sets J → hash_order_ok ho →
  leaves_fingerprints T → update_transactions X ho T n J = Some (Ok J') → lived sets J'.
Proof. exact (lived_rules sets J X T ho n J'). Qed.
Print Assumptions C136_rules.
(** Every successful run of the merge command with the journal first is a step of
    the history: [un] is what it hands back, [out] what it writes. *)
Theorem C136_command E ho f gs um output wd wd' sets J Ss es : hash_order_ok ho → lived sets J →
  journals E wd (f :: gs) (J :: Ss) wd' → merge_cmd E ho (f :: gs) um output wd = (es, Ok tt) →
  ∃ un out, (um = None → un = []) ∧
    (∀ Ts, Forall2 (λ S T, taken S un T) Ss Ts → lived (sets ++ Ts) out) ∧
    (um ≠ Some Stdio ∨ un = [] ∨ output ≠ Stdio → holds wd (steps wd es) output (e_print E (into_ledger ho out))) ∧
    (∀ u, um = Some u → un ≠ [] → u ≠ output → holds wd (steps wd es) u (e_print E (into_ledger ho un))).
Proof. exact (lived_command E ho f gs um output wd wd' sets J Ss es). Qed.
Print Assumptions C136_command.
(** Old statements again, with files. *)
Theorem C136_again_command E ho f gs um output wd wd' sets J Ss : hash_order_ok ho → lived sets J → (∀ S, S ∈ Ss → ∃ T, T ∈ sets ∧ S ⊆+ T) →
  journals E wd (f :: gs) (J :: Ss) wd' → (∀ u, um = Some u → writable E u) → writable E output →
  ∃ es J', merge_cmd E ho (f :: gs) um output wd = (es, Ok tt) ∧ Forall2 trn_refines J J' ∧
    holds wd (steps wd es) output (e_print E (into_ledger ho (stable_sort (by_key tp_date) J'))) ∧
    ∀ p, Path p ≠ output → same_file wd (steps wd es) p.
Proof. exact (lived_again_command E ho f gs um output wd wd' sets J Ss). Qed.
Print Assumptions C136_again_command.
(** A journal written by hand; of the statement of the bank one transaction is handed
    back, one is taken for one written by hand, one is new.  Then everything is
    edited, and what was merged comes again. *)
Example C136_ex : lived [[ex_t3; lv_bus]] lv_J ∧ (∀ S, S ∈ lv_Ss → ∃ T, T ∈ [[ex_t3; lv_bus]] ∧ S ⊆+ T) ∧
  length lv_un = 1 ∧ lv_desc <$> lv_out = [(day1, s2l "one"); (day1, s2l "two"); (day2, s2l "cafe, by hand"); (day2, s2l "bus")].
Proof. exact (conj lv_lived (conj lv_again lv_shape)). Qed.
Example C136_command_ex : journals lq_E lq_w [Path (s2l "hand"); Path (s2l "bank")] [lv_hand; lv_S] lq_w ∧
  lq_run.2 = Ok tt ∧ w_files (steps lq_w lq_run.1) !! s2l "hand" = Some (s2l "OUT") ∧ is_Some (w_files (steps lq_w lq_run.1) !! s2l "rest").
Proof. exact (conj lq_files2 lq_result). Qed.
Example C136_again_command_ex : journals lq_E lq_w [Path (s2l "journal"); Path (s2l "a"); Path (s2l "b")] (lv_J :: lv_Ss) lq_w ∧ ∀ f, writable lq_E f.
Proof. exact (conj lq_files lq_writable). Qed.
Example C136_rules_ex : leaves_fingerprints rx_T ∧ ∃ J', update_transactions rx_X default_order rx_T 2 lv_out = Some (Ok J').
Proof. apply (conj wf_leaves). eexists. vm_compute. reflexivity. Qed.

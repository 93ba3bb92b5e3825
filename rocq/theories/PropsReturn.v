(** Payments deleted from a journal come back with the next statement that has them
    (C137).  The vocabulary is in LivedClaims.v, EditClaims.v and ReturnClaims.v. *)
From Verif Require Import MergeClaims.
From Verif Require Import Base Types SpecBase BaseProofs CommentModel MergeModel CmdModel CmdClaims HeaderClaims
  EditClaims HistoryClaims LivedClaims ReturnClaims Return MergeExamples LivedExamples ReturnExamples.
Local Open Scope nat_scope.

(** C137: [J1] is what is left of the journal [J] after transactions were deleted;
    [S] is from an old statement. *)
Theorem C137_deleted_payments_return sets J T S J1 ho1 ho2 : lived sets J → T ∈ sets → S ⊆+ T → sublist J1 J →
  (∀ tp, tp ∈ S → gone J1 tp → not_mistaken J1 tp) → hash_order_ok ho1 → hash_order_ok ho2 →
  ∃ m1 m2 J' back, merge ho1 merger_new J1 = (m1, Ok []) ∧ merge ho2 m1 S = (m2, Ok []) ∧
    Forall2 trn_refines J1 J' ∧ sublist back S ∧ (∀ tp, tp ∈ back ↔ tp ∈ S ∧ gone J1 tp) ∧
    ∀ hb, hash_order_ok hb → build hb m2 = Ok (stable_sort (by_key tp_date) (J' ++ back)).
Proof. exact (lived_return sets J T S J1 ho1 ho2). Qed.
Print Assumptions C137_deleted_payments_return.
(** The same with the merge command. *)
Theorem C137_command E ho f g um output wd wd' sets J T S J1 : hash_order_ok ho → lived sets J → T ∈ sets → S ⊆+ T → sublist J1 J →
  (∀ tp, tp ∈ S → gone J1 tp → not_mistaken J1 tp) →
  journals E wd [f; g] [J1; S] wd' → (∀ u, um = Some u → writable E u) → writable E output →
  ∃ es J' back, merge_cmd E ho [f; g] um output wd = (es, Ok tt) ∧
    Forall2 trn_refines J1 J' ∧ sublist back S ∧ (∀ tp, tp ∈ back ↔ tp ∈ S ∧ gone J1 tp) ∧
    holds wd (steps wd es) output (e_print E (into_ledger ho (stable_sort (by_key tp_date) (J' ++ back)))) ∧
    ∀ p, Path p ≠ output → same_file wd (steps wd es) p.
Proof. exact (return_command E ho f g um output wd wd' sets J T S J1). Qed.
Print Assumptions C137_command.
Example C137_ex : lived [[ex_t3; lv_bus]] lv_J ∧ rt_S ⊆+ [ex_t3; lv_bus] ∧ (sublist rt_J1 lv_J ∧ rt_J1 ≠ lv_J) ∧
  (∀ tp, tp ∈ rt_S → gone rt_J1 tp → not_mistaken rt_J1 tp) ∧ (gone rt_J1 lv_bus ∧ ¬ gone rt_J1 ex_t3) ∧
  lv_desc <$> rt_out = [(day2, s2l "mine"); (day2, s2l "bus"); ((2020%Z, 1%N, 3%N), s2l "mine"); ((2020%Z, 1%N, 3%N), s2l "mine")].
Proof. exact (conj lv_lived (conj rt_part (conj rt_deleted (conj rt_not_mistaken (conj rt_gone rt_result))))). Qed.
Example C137_command_ex : journals rt_E rt_w [Path (s2l "journal"); Path (s2l "statement")] [rt_J1; rt_S] rt_w ∧ (∀ f, writable rt_E f) ∧
  rt_run.2 = Ok tt ∧ w_files (steps rt_w rt_run.1) !! s2l "journal" = Some (s2l "OUT").
Proof. exact (conj rt_files (conj rt_writable rt_written)). Qed.
(** The last hypothesis is needed: with another payment of the same date, amount and
    account in the journal the deleted one is taken for that. *)
Example C137_not_mistaken_needed : journal_ok rt_J2 ∧ gone rt_J2 lv_bus ∧
  rmap length (build default_order (merge default_order (merge default_order merger_new rt_J2).1 rt_S).1) = Ok (length rt_J2).
Proof. exact rt_mistaken. Qed.

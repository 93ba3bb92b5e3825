(** A journal kept over time: statements are merged into it month after month, and
    in between it is edited by hand (C135).  The vocabulary is in KeptClaims.v,
    EditClaims.v and WindowClaims.v. *)
From Verif Require Import MergeClaims.
From Verif Require Import Base Types SpecBase BaseProofs CommentModel MergeModel CmdModel RulesModel CmdClaims HeaderClaims
  EditClaims WindowClaims KeptClaims Kept KeptCmd MergeExamples RulesExamples WorkflowExamples KeptExamples KeptCmdExamples.
Local Open Scope nat_scope.

(** C135: at any time the next statement merges into the journal.  Nothing is handed
    back; the journal keeps its transactions, with the headers they have by then, and
    their postings, at most refined; added is what no earlier statement had. *)
Theorem C135_next_statement parts seen J w ho1 ho2 :
  journal_ok (concat parts) → kept parts seen J → NoDup w → news parts seen w J → hash_order_ok ho1 → hash_order_ok ho2 →
  ∃ m1 m2 J', merge ho1 merger_new J = (m1, Ok []) ∧ merge ho2 m1 (window parts w) = (m2, Ok []) ∧
    Forall2 trn_refines J J' ∧
    ∀ hb, hash_order_ok hb → build hb m2 = Ok (stable_sort (by_key tp_date) (J' ++ window parts (unseen seen w))).
Proof. exact (kept_month parts seen J w ho1 ho2). Qed.
Print Assumptions C135_next_statement.
(** At any time the journal has every payment of the statements so far exactly once. *)
Theorem C135_once parts seen J k D tp :
  journal_ok (concat parts) → kept parts seen J → k ∈ seen → parts !! k = Some D → tp ∈ D → has_once J tp.
Proof. exact (kept_once parts seen J k D tp). Qed.
Print Assumptions C135_once.
(** Rules that leave fingerprints alone may be among the edits. *)
Theorem C135_rules parts seen J X T ho n J' :
  journal_ok (concat parts) → kept parts seen J → hash_order_ok ho →
  leaves_fingerprints T → update_transactions X ho T n J = Some (Ok J') → kept parts seen J'.
Proof. exact (kept_rules parts seen J X T ho n J'). Qed.
Print Assumptions C135_rules.
(** The same with the merge command; the output may be the file of the journal. *)
Theorem C135_command E ho f g um output wd wd' parts seen J w :
  hash_order_ok ho → journal_ok (concat parts) → kept parts seen J → NoDup w → news parts seen w J →
  journals E wd [f; g] [J; window parts w] wd' → (∀ u, um = Some u → writable E u) → writable E output →
  ∃ es J', merge_cmd E ho [f; g] um output wd = (es, Ok tt) ∧ Forall2 trn_refines J J' ∧
    holds wd (steps wd es) output (e_print E (into_ledger ho (stable_sort (by_key tp_date) (J' ++ window parts (unseen seen w))))) ∧
    ∀ p, Path p ≠ output → same_file wd (steps wd es) p.
Proof. exact (kept_command E ho f g um output wd wd' parts seen J w). Qed.
Print Assumptions C135_command.
(** Two months: the journal starts with a payment in cash, takes in the first day of
    the bank, is edited (dates, descriptions and accounts of the bank's payments are
    changed, a payment in cash is added), and takes in a statement of both days. *)
Example C135_ex : journal_ok (concat wp_parts) ∧ kept wp_parts [0] kp_J1 ∧ NoDup [0; 1] ∧ news wp_parts [0] [0; 1] kp_J1 ∧
  kept wp_parts [0; 1] kp_out2 ∧
  (λ tp, (tp_date tp, t_description (ti_raw (tp_trn tp)))) <$> kp_out2 =
    [(day2, s2l "mine"); (day2, s2l "kiosk"); (day2, s2l "cafe"); ((2020%Z, 1%N, 3%N), s2l "mine"); ((2020%Z, 1%N, 3%N), s2l "mine")].
Proof. exact (conj wp_ok (conj kp_kept2 (conj kp_nodup (conj kp_news (conj kp_kept3 kp_result))))). Qed.
(** The second month with files, the journal being written in place. *)
Example C135_command_ex : journals kq_E kq_w [Path (s2l "journal"); Path (s2l "statement")] [kp_J1; window wp_parts [0; 1]] kq_w ∧
  (∀ f, writable kq_E f) ∧ kq_run.2 = Ok tt ∧ w_files (steps kq_w kq_run.1) !! s2l "journal" = Some (s2l "OUT").
Proof. exact (conj kq_files (conj kq_writable kq_result)). Qed.
(** Rules applied to the journal of the second month. *)
Example C135_rules_ex : leaves_fingerprints rx_T ∧
  ∃ J', update_transactions rx_X default_order rx_T 2 kp_out2 = Some (Ok J') ∧ map rx_shape J' ≠ map rx_shape kp_out2.
Proof. exact (conj wf_leaves kp_rules). Qed.

(** C124: applying the same rules again.  The vocabulary is in AgainClaims.v and
    where C54 and C58 have it. *)
From Verif Require Import MergeClaims.
From stdpp Require Import gmap list relations.
From Verif Require Import Base Types CommentModel MergeModel CmdModel SpecBase BaseProofs CmdClaims CmdProofs CommentExamples MergeExamples CmdExamples RulesModel RulesClaims RulesExamples
  PipeClaims AgainClaims Again AgainCmd.
Local Open Scope nat_scope.

(** C124 *)
(** Rules that do not look at what rules change: applying them to their own result
    gives that result. *)
Theorem C124_elsewhere X T tps out :
  looks_elsewhere X T → replaces_once X T → ruled X T tps out → ruled X T out out.
Proof. intros Hl. exact (again X T Hl tps out). Qed.
Print Assumptions C124_elsewhere.
(** Rules that only treat postings of a certain kind, such as those of an account for
    what is unknown, when no posting that was changed is still of that kind. *)
Theorem C124_settled X T g tps out :
  leaves_transactions T → only_for X T g → is_Some (T !! s2l "start") →
  ruled X T tps out → changed_done g tps out → ruled X T out out.
Proof. exact (settled X T g tps out). Qed.
Print Assumptions C124_settled.
(** The command, applied to the file it wrote. *)
Theorem C124_command E X F ho ho' n paths rules T input file out w es :
  hash_order_ok ho → hash_order_ok ho' → one_file F → all_paths F paths → rules_loaded F rules T →
  looks_elsewhere X T → replaces_once X T →
  rules_cmd E X F ho n rules input (Path file) w = (es, Ok (Some tt)) →
  (∀ tps J, journal_read E w input tps → ruled X T tps J → reads_back E J) →
  f_read E (Path file) = false → writable E (Path out) →
  ∃ text n0, w_files (steps w es) !! file = Some text ∧ ∀ n', n0 ≤ n' →
    ∃ es', rules_cmd E X F ho' n' rules (Path file) (Path out) (steps w es) = (es', Ok (Some tt)) ∧ w_files (steps (steps w es) es') !! out = Some text.
Proof. exact (again_cmd E X F ho ho' n paths rules T input file out w es). Qed.
Print Assumptions C124_command.
(** Rules in general: two results that take turns for ever. *)
Theorem C124_take_turns X : ∃ T A B, ruled X T A B ∧ ruled X T B A ∧ ¬ ruled X T B B.
Proof. exact (ag_refuted X). Qed.
Print Assumptions C124_take_turns.
Example C124_ex :
  looks_elsewhere rx_X ag_T ∧ replaces_once rx_X ag_T ∧ ruled rx_X ag_T ex_s0 ag_out ∧ ruled rx_X ag_T ag_out ag_out ∧ ag_out ≠ ex_s0.
Proof.
  assert (ruled rx_X ag_T ex_s0 ag_out) as H by (apply (ag_ruled rx_X ag_T 3); [by eexists|vm_compute; reflexivity]).
  split; [exact ag_elsewhere|]. split; [exact ag_once|]. split; [exact H|]. split; [|vm_compute; discriminate].
  exact (C124_elsewhere rx_X ag_T ex_s0 ag_out ag_elsewhere ag_once H).
Qed.
Example C124_settled_ex :
  ruled rx_X ag_unknown (ag_one unknown) ag_settled ∧ ruled rx_X ag_unknown ag_settled ag_settled ∧ (p_account ∘ pi_raw <$> (ag_settled ≫= tp_posts)) = [food].
Proof.
  assert (ruled rx_X ag_unknown (ag_one unknown) ag_settled) as H by (apply (ag_ruled rx_X _ 3); [by eexists|vm_compute; reflexivity]).
  split; [exact H|]. split; [|vm_compute; reflexivity]. refine (C124_settled rx_X ag_unknown _ _ _ ag_leaves (ag_only rx_X) _ H _); [by eexists|].
  constructor; [|constructor]. constructor; [|constructor]. right. vm_compute. discriminate.
Qed.
Example C124_command_ex :
  ∃ text n0, w_files (steps ex_w ag_run.1) !! s2l "out" = Some text ∧ ∀ n', n0 ≤ n' →
    ∃ es', rules_cmd ag_E rx_X ag_F reverse_order n' (s2l "/r/main") (Path (s2l "out")) (Path (s2l "again")) (steps ex_w ag_run.1) = (es', Ok (Some tt)) ∧
      w_files (steps (steps ex_w ag_run.1) es') !! s2l "again" = Some text.
Proof.
  refine (C124_command ag_E rx_X ag_F default_order reverse_order 7 [s2l "/r/main"] (s2l "/r/main") ag_T (Path (s2l "a")) (s2l "out") (s2l "again") ex_w ag_run.1
    default_order_ok reverse_order_ok ag_one_file ag_all ag_loaded ag_elsewhere ag_once ag_runs ag_back eq_refl _).
  split; reflexivity.
Qed.

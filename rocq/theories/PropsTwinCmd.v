(** Files of two sources, merged by the command (C112). *)
From stdpp Require Import gmap list.
From Verif Require Import Base Types CommentModel MergeModel SpecBase MergeSpec MergeClaims CmdModel CmdClaims HeaderClaims
  PiecesClaims TwinClaims TwinExamples TwinCmd.
Local Open Scope nat_scope.

(** C112: the first source is in one file, the second in any number of files and in any
    order. Then the merge command succeeds, and the journal it writes has each payment
    once; no other file changes. *)
Theorem C112_command E wl extra gs f fs w w' ho um output :
  two_sources wl extra → extra_apart wl extra → mjoin gs ≡ₚ second_source wl extra → hash_order_ok ho →
  journals E w (f :: fs) (first_source wl :: gs) w' → (∀ g, um = Some g → writable E g) → writable E output →
  ∃ es out, merge_cmd E ho (f :: fs) um output w = (es, Ok tt) ∧
    same_up_to_order (stable_sort (by_key tp_date) ((joined <$> wl) ++ extra)) out ∧
    holds w (steps w es) output (e_print E (into_ledger ho out)) ∧ ∀ p, Path p ≠ output → same_file w (steps w es) p.
Proof. exact (two_files E wl extra gs f fs w w' ho um output). Qed.
Print Assumptions C112_command.
(** The transfer of C112_ex; the file of one bank, and two of the other. *)
Example C112_command_ex : two_sources tw_w [tw_b2] ∧ extra_apart tw_w [tw_b2] ∧
  mjoin [[tw_b2]; [tw_b1]] ≡ₚ second_source tw_w [tw_b2] ∧
  journals tw_E tw_world tw_files [first_source tw_w; [tw_b2]; [tw_b1]] tw_world ∧
  (tw_run.2, w_files (steps tw_world tw_run.1) !! s2l "out") = (Ok tt, Some (s2l "OUT")).
Proof. exact (conj tw_ok (conj tw_extra_apart (conj (perm_swap _ _ _) (conj tw_journals tw_run_ok)))). Qed.

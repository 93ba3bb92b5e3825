(** Specification vocabulary: running fmt before other commands (C154). *)
From stdpp Require Import gmap list.
From Verif Require Import Base Types MergeModel CmdModel RulesModel CmdClaims.

(** The commands that read journals, with their arguments. *)
Inductive journal_command :=
  | JMerge (ho : hash_order) (inputs : list filespec) (unmerged : option filespec) (output : filespec)
  | JFmt (journals : list filespec)
  | JFpgen (ho : hash_order) (gen : nat → str) (n : nat) (journals : list filespec)
  | JRules (ho : hash_order) (fuel : nat) (rules : str) (input output : filespec).
Definition run_command (E : env) (X : text_env) (F : rules_fs) (c : journal_command) : io (option unit) :=
  match c with
  | JMerge ho inputs um output => do! u := merge_cmd E ho inputs um output in io_ret (Some u)
  | JFmt js => do! u := fmt_cmd E js in io_ret (Some u)
  | JFpgen ho gen n js => do! u := fpgen_cmd E ho gen n js in io_ret (Some u)
  | JRules ho fuel rules input output => rules_cmd E X F ho fuel rules input output
  end.
(** What commands run one after the other do: for each, everything it writes and
    creates, in order, and how it ends; a command that fails does not keep the next ones
    from being run. *)
Fixpoint run_commands (E : env) (X : text_env) (F : rules_fs) (w : world) (cs : list journal_command)
  : list (list event * result (option unit)) :=
  match cs with
  | [] => []
  | c :: cs => let r := run_command E X F c w in r :: run_commands E X F (steps w r.1) cs
  end.

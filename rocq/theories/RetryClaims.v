(** Specification vocabulary for commands that are run again after they were
    interrupted (C127). *)
From Verif Require Import Base Types SpecBase MergeModel CmdModel CmdClaims.
Local Open Scope nat_scope.

(** The same programs; what goes wrong may differ. *)
Definition same_programs (E E' : env) : Prop :=
  e_parse E' = e_parse E ∧ e_print E' = e_print E ∧ e_quote E' = e_quote E ∧ e_parent E' = e_parent E.
(** Any number of attempts to run a command took the world from [w] to [w']: each
    ended well, failed, or was interrupted, whatever went wrong at the time and in
    whatever order it went through hash tables. *)
Inductive attempts {A} (E : env) (cmd : env → hash_order → io A) : world → world → Prop :=
  | attempts_none w : attempts E cmd w w
  | attempts_more w w1 w2 E1 ho1 es r : attempts E cmd w w1 → same_programs E E1 → hash_order_ok ho1 →
      cmd E1 ho1 w1 = (es, r) → crash_world w1 es w2 → attempts E cmd w w2.
(** Files that are read are not written. *)
Definition apart (inputs : list filespec) (outputs : list filespec) : Prop :=
  ∀ f, f ∈ inputs → f ≠ Stdio ∧ f ∉ outputs.
(** The place an import is written to: [output], or with the namespace put in. *)
Definition placed (output : filespec) (substitute : bool) (namespace : str) (out : filespec) : Prop :=
  match substitute with
  | false => out = output
  | true => ∃ p p', output = Path p ∧ out = Path p' ∧ replaced (s2l "%FP_NS%") namespace p p'
  end.

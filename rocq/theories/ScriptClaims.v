(** Specification vocabulary for scripts of commands (C129). *)
From Verif Require Import MergeClaims.
From Verif Require Import Base Types SpecBase CommentModel MergeModel CmdModel FingerprintModel NwCsvModel TzModel PaypalModel OcrModel PdfModel RulesModel
  CmdClaims ImporterModel RetryClaims.
Local Open Scope nat_scope.

(** Calls of the program: merge, apply-rules and the three kinds of import. *)
Inductive command :=
  | CMerge (inputs : list filespec) (unmerged : option filespec) (output : filespec)
  | CRules (X : text_env) (F : rules_fs) (fuel : nat) (rules : str) (input output : filespec)
  | CNationwide (V : csv_env) (pd : date_parser) (o : nw_opts) (input output : filespec) (substitute make : bool)
  | CPaypal (V : csv_env) (legacy : bool) (tz : instant → date) (ns : str) (input abbrs output : filespec) (substitute make : bool)
  | CPdf (X : pdf_env) (T : ocr_tools) (o : fp_namespace_opt) (output : filespec) (substitute make : bool).
Definition execute (E : env) (ho : hash_order) (c : command) : io unit :=
  match c with
  | CMerge inputs um output => merge_cmd E ho inputs um output
  | CRules X F fuel rules input output =>
      (* rules that go round for ever count as failing *)
      do! r := rules_cmd E X F ho fuel rules input output in match r with Some _ => io_ret tt | None => io_fail EOther end
  | CNationwide V pd o input output sub make => import_cmd E (nw_importer E V pd ho o input) output sub make
  | CPaypal V legacy tz ns input abbrs output sub make => import_cmd E (pp_importer E V ho legacy tz ns input abbrs) output sub make
  | CPdf X T o output sub make => import_cmd E (pdf_importer X T ho o) output sub make
  end.
(** One after the other, until one fails. *)
Fixpoint script (E : env) (ho : hash_order) (cs : list command) : io unit :=
  match cs with
  | [] => io_ret tt
  | c :: cs => do! _ := execute E ho c in script E ho cs
  end.

(** The files a command reads; those it may write, and those it writes whenever it
    ends well (the file for unmerged transactions is only written if there are any;
    the place of an import can depend on a namespace). *)
Definition reads (c : command) : list filespec :=
  match c with
  | CMerge inputs _ _ => inputs
  | CRules _ _ _ _ input _ => [input]
  | CNationwide _ _ _ input _ _ _ => [input]
  | CPaypal _ _ _ _ input abbrs _ _ _ => [input; abbrs]
  | CPdf _ _ _ _ _ _ => []
  end.
Definition may_write (c : command) (p : str) : Prop :=
  match c with
  | CMerge _ um output => um = Some (Path p) ∨ output = Path p
  | CRules _ _ _ _ _ output => output = Path p
  | CNationwide _ _ _ _ output sub _ | CPaypal _ _ _ _ _ _ output sub _ | CPdf _ _ _ output sub _ => ∃ ns, placed output sub ns (Path p)
  end.
Definition must_write (c : command) (p : str) : Prop :=
  match c with
  | CMerge _ _ output | CRules _ _ _ _ _ output => output = Path p
  | CNationwide _ _ _ _ output sub _ | CPaypal _ _ _ _ _ _ output sub _ | CPdf _ _ _ output sub _ => sub = false ∧ output = Path p
  end.
(** What a command reads is written by an earlier one, or by none. *)
Definition in_order (cs : list command) : Prop := ∀ a c b f, cs = a ++ c :: b → f ∈ reads c →
  ∃ p, f = Path p ∧ ((∃ d, d ∈ a ∧ must_write d p) ∨ ∀ d, d ∈ cs → ¬ may_write d p).

(** Some of the commands were run before, any number of times, in any order, with
    whatever faults, and each time everything was stopped at any point. *)
Inductive tried (cs : list command) : world → world → Prop :=
  | tried_not w : tried cs w w
  | tried_again w w1 w2 E ho ds es r : tried cs w w1 → ds ⊆ cs →
      script E ho ds w1 = (es, r) → crash_world w1 es w2 → tried cs w w2.

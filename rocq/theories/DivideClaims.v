(** Specification vocabulary: dividing rules among files (C147). *)
From stdpp Require Import gmap list.
From Verif Require Import Base Types CmdModel RulesModel RulesClaims.

(** The files reached from [p] in [F], and those reached from [p'] in [F'], define the
    same chains. *)
Definition same_chains (F F' : rules_fs) (p p' : str) : Prop :=
  ∀ n rs, (∃ q, reached F p q ∧ (n, rs) ∈ definitions F q) ↔ (∃ q, reached F' p' q ∧ (n, rs) ∈ definitions F' q).
(** The files can be read, with all they include, and define no chain twice. *)
Definition in_order (F : rules_fs) (p : str) : Prop := all_readable F p ∧ defined_once F p.

(** The same files, but that the entries (includes and chains) of each can be in
    another order. *)
Record reordered (F F' : rules_fs) : Prop := {
  ro_open : ∀ p, option_Forall2 (≡ₚ) (rf_open F p) (rf_open F' p);
  ro_canonical : ∀ p, rf_canonical F' p = rf_canonical F p;
  ro_parent : ∀ p, rf_parent F' p = rf_parent F p;
  ro_join : ∀ p q, rf_join F' p q = rf_join F p q;
}.

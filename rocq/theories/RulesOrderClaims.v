(** Specification vocabulary: rules before or after merging (C123). *)
From Verif Require Import MergeClaims.
From Verif Require Import Base Types SpecBase CommentModel MergeModel CmdModel RulesModel RulesClaims CmdClaims PipeClaims.

(** The sets [raw] merge without leftovers, and so do the sets [Js]; of the journals
    that result, the second is the first with the rules applied. *)
Definition either_way (X : text_env) (T : table) (hos : list hash_order) (raw Js : list (list transaction_postings)) : Prop :=
  ∃ m m', clean_run merger_new (zip hos raw) m ∧ clean_run merger_new (zip hos Js) m' ∧
    ∀ ho ho', hash_order_ok ho → hash_order_ok ho' →
      ∃ out out', build ho m = Ok out ∧ build ho' m' = Ok out' ∧ ruled X T out out'.
(** From world [w] the files [raw] are merged to [merged], and the rules are applied
    to that; from world [w2] the files [done] are merged.  Both write the same
    text to [final].  The rules need enough steps. *)
Definition same_text (E : env) (X : text_env) (F : rules_fs) (rules : str) (ho : hash_order) (um : option filespec)
    (w : world) (raw : list str) (merged : str) (w2 : world) (done : list str) (final : str) : Prop :=
  ∃ es es', merge_cmd E ho (Path <$> raw) um (Path merged) w = (es, Ok tt) ∧
    merge_cmd E ho (Path <$> done) um (Path final) w2 = (es', Ok tt) ∧
    ∃ n0, ∀ n, (n0 ≤ n)%nat → ∃ es2, rules_cmd E X F ho n rules (Path merged) (Path final) (steps w es) = (es2, Ok (Some tt)) ∧
      ∃ text, w_files (steps (steps w es) es2) !! final = Some text ∧ w_files (steps w2 es') !! final = Some text.

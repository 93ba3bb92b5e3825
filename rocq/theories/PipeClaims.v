(** Specification vocabulary for importing statements, applying rules to what was
    imported and merging the results (C108). *)
From Verif Require Import MergeClaims.
From Verif Require Import Base Types SpecBase CommentModel MergeModel CmdModel RulesModel RulesClaims CmdClaims.

(** The rules turn the transactions [tps] into [J]. *)
Definition ruled (X : text_env) (T : table) (tps J : list transaction_postings) : Prop :=
  Forall2 (λ tp tp', posts_end X T (tp_trn tp) (tp_posts tp) (tp_trn tp') (tp_posts tp')) tps J.

(** A run of the command apply-rules: input and output file. *)
Record rules_run := RulesRun { rr_order : hash_order; rr_fuel : nat; rr_in : str; rr_out : str }.
(** Successful runs one after the other, with the rules of the same file. *)
Inductive rulings (E : env) (X : text_env) (F : rules_fs) (rules : str) : world → list rules_run → world → Prop :=
  | rulings_nil w : rulings E X F rules w [] w
  | rulings_cons w r es rs w' : hash_order_ok (rr_order r) →
      rules_cmd E X F (rr_order r) (rr_fuel r) rules (Path (rr_in r)) (Path (rr_out r)) w = (es, Ok (Some tt)) →
      rulings E X F rules (steps w es) rs w' → rulings E X F rules w (r :: rs) w'.

(** What is printed for these transactions is read back, comments included, and they
    have no tag for a source file. *)
Definition reads_back (E : env) (J : list transaction_postings) : Prop :=
  (∀ ho, hash_order_ok ho → e_parse E (e_print E (into_ledger ho J)) = Some (into_ledger ho J)) ∧
  ∀ tp, tp ∈ J → comments_writable tp ∧ source_tag tp = None.

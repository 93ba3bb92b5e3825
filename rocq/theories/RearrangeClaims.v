(** Specification vocabulary: rearranging tables of rules (C120). *)
From stdpp Require Import gmap list relations.
From Verif Require Import Base Types CommentModel MergeModel CmdModel SpecBase CmdClaims RulesModel RulesClaims.
Local Open Scope nat_scope.

(** Applying the tables to any journal has the same outcome, or does not end for
    either. *)
Definition same_effect (T T' : table) : Prop := ∀ X ho tps out, hash_order_ok ho →
  (∃ n, update_transactions X ho T n tps = Some out) ↔ (∃ n, update_transactions X ho T' n tps = Some out).

(** Chains have other names, in jumps as well; only the chains that can be run
    matter. *)
Fixpoint action_renamed (f : str → str) (a : action) : action :=
  match a with AJump m => AJump (f m) | AAll l => AAll (map (action_renamed f) l) | a => a end.
Definition rule_renamed (f : str → str) (r : rule) : rule := Rule (r_predicate r) (action_renamed f (r_action r)) (r_result r).
Definition renamed (f : str → str) (T T' : table) : Prop :=
  f (s2l "start") = s2l "start" ∧ ∀ n, used T n → T' !! f n = map (rule_renamed f) <$> T !! n.

(** The rules [mid] of chain [name] are moved to a chain [new], to which the chain
    jumps in their place. *)
Definition moved (T T' : table) (name new : str) : Prop := ∃ before mid after,
  T !! name = Some (before ++ mid ++ after) ∧
  (Forall (λ r, r_result r = RContinue) mid ∨ after = []) ∧
  new ≠ s2l "start" ∧ T !! new = None ∧ (∀ n, ¬ jumps T n new) ∧
  T' = <[new := mid]> (<[name := before ++ Rule PTrue (AJump new) RContinue :: after]> T).

(** The rules have the same effect wherever they are. *)
Definition alike (rs rs' : list rule) : Prop := ∀ X T c out, rules_end X T rs c out ↔ rules_end X T rs' c out.

(** Rearranging tables of rules (C120).  The vocabulary is in RearrangeClaims.v. *)
From Verif Require Import MergeClaims.
From stdpp Require Import gmap list relations.
From Verif Require Import Base Types CommentModel MergeModel CmdModel SpecBase BaseProofs MergeExamples CmdClaims CmdProofs CmdExamples
  RulesModel RulesClaims RulesProofs RulesLaws RulesLoad RulesCmd RulesExamples PipeExamples RearrangeClaims Rearrange RearrangeExamples.
Local Open Scope nat_scope.

(** C120: chains can have any names (but "start"), and chains that cannot be run
    are of no effect. *)
Theorem C120_renamed f T T' : renamed f T T' → same_effect T T'.
Proof. exact (c120_renamed f T T'). Qed.
Print Assumptions C120_renamed.
Example C120_renamed_ex : renamed rr_name rx_T rr_named ∧ rr_named !! s2l "sub" ≠ rx_T !! s2l "sub" ∧
  update_transactions rx_X default_order rr_named 2 ex_s0 = Some (Ok rx_out) ∧ rx_out ≠ ex_s0.
Proof. split_and!; [exact rr_renamed|vm_compute; discriminate|vm_compute; reflexivity|vm_compute; discriminate]. Qed.

(** Rules that all continue, or the last ones of a chain, can be moved to a chain
    of their own. *)
Theorem C120_moved T T' name new : moved T T' name new → same_effect T T'.
Proof. exact (c120_moved T T' name new). Qed.
Print Assumptions C120_moved.
Example C120_moved_ex : moved rx_T rr_moved (s2l "start") (s2l "by") ∧
  update_transactions rx_X default_order rr_moved 2 ex_s0 = Some (Ok rx_out).
Proof. split; [exact rr_is_moved|vm_compute; reflexivity]. Qed.
(** A rule that returns and has others after it cannot. *)
Example C120_not_moved :
  let T := {[ s2l "start" := [rule2 PTrue ANoop; rule1 PTrue (ASetAccount food)] ]} in
  let T' := {[ s2l "start" := [rule1 PTrue (AJump (s2l "new")); rule1 PTrue (ASetAccount food)]; s2l "new" := [rule2 PTrue ANoop] ]} in
  option_map (rmap (map rx_shape)) (update_transactions rx_X default_order T 2 [ex_t2]) ≠
  option_map (rmap (map rx_shape)) (update_transactions rx_X default_order T' 2 [ex_t2]).
Proof. vm_compute. discriminate. Qed.

(** The rules of a chain can be replaced by rules that are alike ... *)
Theorem C120_replaced T name rs rs' : T !! name = Some rs → alike rs rs' → same_effect T (<[name := rs']> T).
Proof. exact (c120_replaced T name rs rs'). Qed.
Print Assumptions C120_replaced.
(** ... wherever they are in it, ... *)
Theorem C120_within before rs rs' : alike rs rs' → alike (before ++ rs) (before ++ rs').
Proof. exact (alike_app before rs rs'). Qed.
Print Assumptions C120_within.
(** ... and such are: a rule that never holds and none, ... *)
Theorem C120_never p a res after : (∀ X c, ¬ holds_for X c p) → alike (Rule p a res :: after) after.
Proof. exact (alike_never p a res after). Qed.
Print Assumptions C120_never.
Example C120_never_ex X c : ¬ holds_for X c (PAny []) ∧ ¬ holds_for X c (PAll [is_account bank; PNot PTrue]).
Proof.
  split; rewrite <- (is_match_holds X default_order _ _ default_order_ok); cbn; [done|]. by rewrite andb_false_r.
Qed.
(** ... a rule that does nothing and goes on, and none, ... *)
Theorem C120_noop p after : alike (Rule p ANoop RContinue :: after) after.
Proof. exact (alike_noop p after). Qed.
Print Assumptions C120_noop.
(** ... rules with and without others after one that always returns, ... *)
Theorem C120_last a after : alike (Rule PTrue a RReturn :: after) [Rule PTrue a RReturn].
Proof. exact (alike_last a after). Qed.
Print Assumptions C120_last.
(** ... rules with predicates that hold for the same postings, ... *)
Theorem C120_predicate p p' a res after : (∀ X c, holds_for X c p ↔ holds_for X c p') →
  alike (Rule p a res :: after) (Rule p' a res :: after).
Proof. exact (alike_predicate p p' a res after). Qed.
Print Assumptions C120_predicate.
(** ... a rule with several actions and rules with one each, ... *)
Theorem C120_all l after : alike (Rule PTrue (AAll l) RContinue :: after) (map (λ a, Rule PTrue a RContinue) l ++ after).
Proof. exact (alike_all l after). Qed.
Print Assumptions C120_all.
(** ... two rules that return after the same action, and one for either, ... *)
Theorem C120_any p q a after :
  alike (Rule p a RReturn :: Rule q a RReturn :: after) (Rule (PAny [p; q]) a RReturn :: after).
Proof. exact (alike_any p q a after). Qed.
Print Assumptions C120_any.
(** ... two rules that return and never hold both, in either order. *)
Theorem C120_swap p q a b after : (∀ X c, holds_for X c p → ¬ holds_for X c q) →
  alike (Rule p a RReturn :: Rule q b RReturn :: after) (Rule q b RReturn :: Rule p a RReturn :: after).
Proof. exact (alike_swap p q a b after). Qed.
Print Assumptions C120_swap.
Example C120_swap_ex X c : holds_for X c (is_account bank) → ¬ holds_for X c (is_account food).
Proof.
  intros H H'. inversion H as [| | | |? H1| | | | |]. inversion H' as [| | | |? H1'| | | | |]. subst.
  inversion H1. inversion H1'. subst. assert (bank = food) as E by congruence. revert E. vm_compute. discriminate.
Qed.
(** The actions of one rule are done although they change what it holds for; two rules are not the same. *)
Example C120_not_split :
  let a := [ASetAccount food; AAddPostFlag (s2l "x")] in
  let T := {[ s2l "start" := [rule1 (is_account bank) (AAll a)] ]} in
  let T' := {[ s2l "start" := map (rule1 (is_account bank)) a ]} in
  option_map (rmap (map rx_shape)) (update_transactions rx_X default_order T 2 [ex_t2]) ≠
  option_map (rmap (map rx_shape)) (update_transactions rx_X default_order T' 2 [ex_t2]).
Proof. vm_compute. discriminate. Qed.

(** The command does the same with rule files that load such tables. *)
Theorem C120_command E X ho F paths p T F' paths' p' T' input output w es r :
  hash_order_ok ho → one_file F → all_paths F paths → rules_loaded F p T →
  one_file F' → all_paths F' paths' → rules_loaded F' p' T' → same_effect T T' → r ≠ Ok None →
  (∃ n0, ∀ n, n0 ≤ n → rules_cmd E X F ho n p input output w = (es, r)) →
  ∃ n0, ∀ n, n0 ≤ n → rules_cmd E X F' ho n p' input output w = (es, r).
Proof. exact (c120_command E X ho F paths p T F' paths' p' T' input output w es r). Qed.
Print Assumptions C120_command.
Example C120_command_ex :
  one_file rx_F ∧ all_paths rx_F rx_paths ∧ rules_loaded rx_F (s2l "/r/main") pi_T ∧
  one_file rr_F ∧ all_paths rr_F [s2l "/one"] ∧ rules_loaded rr_F (s2l "/one") rr_T ∧ same_effect pi_T rr_T ∧
  (rules_cmd rx_E rx_X rr_F default_order 7 (s2l "/one") (Path (s2l "a")) (Path (s2l "out")) ex_w).2 = Ok (Some tt) ∧
  rules_cmd rx_E rx_X rr_F default_order 7 (s2l "/one") (Path (s2l "a")) (Path (s2l "out")) ex_w =
  rules_cmd rx_E rx_X rx_F default_order 7 (s2l "/r/main") (Path (s2l "a")) (Path (s2l "out")) ex_w.
Proof.
  split_and!; [exact rx_one|exact rx_all|exact pi_loaded|exact rr_one|exact rr_all|exact rr_loaded|exact rr_same|vm_compute; reflexivity|vm_compute; reflexivity].
Qed.

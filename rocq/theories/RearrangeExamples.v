(** Literal tables for the examples beside C120. *)
From Verif Require Import MergeClaims.
From stdpp Require Import gmap list relations.
From Verif Require Import Base Types CommentModel MergeModel CmdModel SpecBase BaseProofs MergeExamples CmdClaims CmdProofs CmdExamples
  RulesModel RulesClaims RulesProofs RulesLaws RulesLoad RulesCmd RulesExamples PipeExamples RearrangeClaims Rearrange.
Local Open Scope nat_scope.

(** rx_T with "sub" named "aside". *)
Definition rr_name (n : str) : str := if str_eqb n (s2l "sub") then s2l "aside" else n.
Definition rr_named : table := {[ s2l "start" := map (rule_renamed rr_name) rx_start; s2l "aside" := rx_sub; s2l "sub" := [] ]}.
Lemma rr_start_sub n : is_Some (rx_T !! n) → n = s2l "start" ∨ n = s2l "sub".
Proof.
  intros [rs H]. unfold rx_T in H. apply lookup_insert_Some in H as [[<- _]|[_ H]]; [by left|].
  apply lookup_singleton_Some in H as [<- _]. by right.
Qed.
Lemma rr_used n : used rx_T n → n = s2l "start" ∨ n = s2l "sub".
Proof. intros H. apply rr_start_sub. revert n H. apply (used_closed _ [s2l "start"; s2l "sub"]); by_compute. Qed.
Lemma rr_renamed : renamed rr_name rx_T rr_named.
Proof. split; [by_compute|]. intros n [->| ->]%rr_used; vm_compute; reflexivity. Qed.

(** rx_T with the rule that names "by" in a chain of its own. *)
Definition rr_moved : table :=
  <[s2l "by" := [rule1 PTrue (AAddTrnValue (s2l "by") (s2l "rules"))]]>
  (<[s2l "start" := [ rule1 (PAny [is_account bank; PFlagTag (MMatches (s2l "^fp-b"))]) (AAll [AAddPostFlag (s2l "seen"); AJump (s2l "sub")]);
    rule1 PTrue (AJump (s2l "by"));
    rule2 (PNot (PHasFlagTag (s2l "seen"))) (ASetAccount (s2l "other"));
    rule1 PTrue (ARemovePostFlag (s2l "seen")) ]]> rx_T).
Lemma rr_is_moved : moved rx_T rr_moved (s2l "start") (s2l "by").
Proof.
  exists [rule1 (PAny [is_account bank; PFlagTag (MMatches (s2l "^fp-b"))]) (AAll [AAddPostFlag (s2l "seen"); AJump (s2l "sub")])],
    [rule1 PTrue (AAddTrnValue (s2l "by") (s2l "rules"))],
    [rule2 (PNot (PHasFlagTag (s2l "seen"))) (ASetAccount (s2l "other")); rule1 PTrue (ARemovePostFlag (s2l "seen"))].
  split_and!.
  - vm_compute. reflexivity.
  - left. by apply Forall_singleton.
  - by_compute.
  - vm_compute. reflexivity.
  - intros n (rs & r & Hn & Hr & Hw).
    assert (s2l "by" ∈ default [] (rx_T !! n) ≫= λ r, jump_names (r_action r)) as H.
    { rewrite Hn. apply elem_of_list_bind. exists r. split; [by apply jump_names_spec|done]. }
    destruct (rr_start_sub n ltac:(by eexists)) as [->| ->]; apply (bool_decide_pack _) in H; vm_compute in H; exact H.
  - reflexivity.
Qed.

(** One file with the chains "start" and "sub", the former with its rule that names "by" in a chain of its own. *)
Definition rr_file : list entry := [EChain (s2l "by") (default [] (rr_moved !! s2l "by")); EChain (s2l "sub") rx_sub; EChain (s2l "start") (default [] (rr_moved !! s2l "start"))].
Definition rr_open (p : str) : option (list entry) := if str_eqb p (s2l "/one") then Some rr_file else None.
Definition rr_F : rules_fs := RulesFs rr_open (λ p, if rr_open p then Some p else None) (λ _, Some (s2l "/")) (λ d p, d ++ s2l "/" ++ p).
Lemma rr_one : one_file rr_F.
Proof. intros p q H. cbn [rr_F rf_canonical rf_open] in *. destruct (rr_open p) eqn:E; [|discriminate H]. injection H as <-. exact (eq_sym E). Qed.
Lemma rr_all : all_paths rr_F [s2l "/one"].
Proof.
  intros p q. cbn [rr_F rf_canonical]. unfold rr_open. destruct (str_eqb p (s2l "/one")) eqn:E; [|done]. intros [= <-].
  unfold str_eqb in E. apply bool_decide_eq_true in E. subst p. apply elem_of_list_singleton. reflexivity.
Qed.
Definition rr_T : table := match load_from_path rr_F default_order 2 (s2l "/one") with Some (Ok T) => T | _ => ∅ end.
Lemma rr_loads : load_from_path rr_F default_order 2 (s2l "/one") = Some (Ok rr_T).
Proof. vm_compute. reflexivity. Qed.
Lemma rr_loaded : rules_loaded rr_F (s2l "/one") rr_T.
Proof. eapply load_from_path_ok; [exact default_order_ok|exact rr_one|exact rr_loads]. Qed.
Lemma rr_used_moved n : used rr_moved n → n = s2l "start" ∨ n = s2l "sub" ∨ n = s2l "by".
Proof.
  intros H. assert (is_Some (rr_moved !! n)) as [rs Hn] by (revert n H; apply (used_closed _ [s2l "start"; s2l "sub"; s2l "by"]); by_compute).
  unfold rr_moved in Hn. apply lookup_insert_Some in Hn as [[<- _]|[_ Hn]]; [auto|]. apply lookup_insert_Some in Hn as [[<- _]|[_ Hn]]; [auto|].
  destruct (rr_start_sub n ltac:(by eexists)); auto.
Qed.
(** The files of C59_ex have the same effect. *)
Lemma rr_same : same_effect pi_T rr_T.
Proof.
  apply (same_effect_trans _ rx_T); [apply same_effect_sym, (c120_renamed id)|apply (same_effect_trans _ rr_moved); [apply (c120_moved _ _ _ _ rr_is_moved)|apply (c120_renamed id)]].
  - split; [reflexivity|]. intros n [->| ->]%rr_used; vm_compute; reflexivity.
  - split; [reflexivity|]. intros n [->|[->| ->]]%rr_used_moved; vm_compute; reflexivity.
Qed.

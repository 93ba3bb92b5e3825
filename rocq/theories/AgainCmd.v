(** C124 for the command, and literal tables for the examples beside it. *)
From Verif Require Import MergeClaims.
From stdpp Require Import gmap list relations.
From Verif Require Import Base Types CommentModel MergeModel CmdModel SpecBase BaseProofs CmdClaims CmdProofs CmdIdem CommentExamples MergeExamples CmdExamples RulesModel RulesClaims RulesProofs RulesLaws RulesLoad RulesCmd RulesExamples
  PipeClaims Pipe RulesOrder AgainClaims Again.
Local Open Scope nat_scope.

Lemma again_cmd E X F ho ho' n paths rules T input file out w es :
  hash_order_ok ho → hash_order_ok ho' → one_file F → all_paths F paths → rules_loaded F rules T →
  looks_elsewhere X T → replaces_once X T →
  rules_cmd E X F ho n rules input (Path file) w = (es, Ok (Some tt)) →
  (∀ tps J, journal_read E w input tps → ruled X T tps J → reads_back E J) →
  f_read E (Path file) = false → writable E (Path out) →
  ∃ text n0, w_files (steps w es) !! file = Some text ∧ ∀ n', n0 ≤ n' →
    ∃ es', rules_cmd E X F ho' n' rules (Path file) (Path out) (steps w es) = (es', Ok (Some tt)) ∧ w_files (steps (steps w es) es') !! out = Some text.
Proof.
  intros Hho Hho' Hone Hall HT Hl Ho Hc Hb Hr Hw.
  destruct (c58_written E X F ho n rules _ _ w es Hho Hone Hc) as (J & (T' & tps & HT' & Hj & HJ) & Hh & _).
  rewrite (rules_loaded_fun _ _ _ _ HT' HT) in HJ.
  assert (Forall clean_tp J) as Hcl.
  { eapply ruled_clean; [apply HT|exact HJ|]. destruct Hj as (l & w1 & _ & _ & ->). apply Forall_fmap, Forall_forall. intros t _. apply clean_of. }
  pose proof (Hb tps J Hj HJ) as Hbj. assert (w_files (steps w es) !! file = Some (e_print E (into_ledger ho J))) as Hf by exact Hh.
  rewrite (into_ledger_order ho ho' J Hho Hho') in Hf.
  destruct (rules_on_file E X F paths rules T ho' (steps w es) file J J out Hho' Hone Hall HT Hr Hf Hbj Hcl (again X T Hl tps J Ho HJ) Hw) as [n0 Hn].
  exists (e_print E (into_ledger ho' J)), n0. split; [exact Hf|exact Hn].
Qed.

(** * Literal tables *)
(** Deciding the conditions for a table. *)
Definition spots_changed (a : action) : list spot :=
  match a with
  | ASetAccount _ => [AccountSpot] | AAddPostFlag t | ARemovePostFlag t => [FlagSpot t]
  | AAddPostValue k _ | ARemovePostValue k => [ValueSpot k] | AReplaceDescription _ _ => [DescriptionSpot]
  | AAddTrnFlag t | ARemoveTrnFlag t => [TrnFlagSpot t] | AAddTrnValue k _ | ARemoveTrnValue k => [TrnValueSpot k]
  | _ => []
  end.
Lemma spots_changed_ok a x : changes a x → x ∈ spots_changed a.
Proof. intros []; left. Qed.
Fixpoint looks_b (X : text_env) (p : predicate) (x : spot) : bool :=
  match p with
  | PAll ps | PAny ps => existsb (λ p, looks_b X p x) ps
  | PNot p => looks_b X p x
  | PAccount _ => match x with AccountSpot => true | _ => false end
  | PFlagTag m => match x with FlagSpot t => matches_string X m t | _ => false end
  | PHasFlagTag t' => match x with FlagSpot t => str_eqb t' t | _ => false end
  | PHasValueTag k' | PValueTag k' _ => match x with ValueSpot k => str_eqb k' k | _ => false end
  | PDescription _ => match x with DescriptionSpot => true | _ => false end
  | PTrue => false
  end.
Lemma looks_b_ok X p x : looks_at X p x → looks_b X p x = true.
Proof.
  induction 1 as [p ps x Hp _ IH|p ps x Hp _ IH|p x _ IH|m|m t H|t|k|k m|m]; cbn [looks_b]; try done.
  - apply existsb_exists. exists p. split; [by apply elem_of_list_In|done].
  - apply existsb_exists. exists p. split; [by apply elem_of_list_In|done].
  - by apply string_match_spec.
  - by apply bool_decide_eq_true.
  - by apply bool_decide_eq_true.
  - by apply bool_decide_eq_true.
Qed.
Fixpoint actions_in (a : action) : list action := a :: match a with AAll l => l ≫= actions_in | _ => [] end.
Lemma actions_in_ok b a : within b a → b ∈ actions_in a.
Proof.
  induction 1 as [|c l Hc _ IH]; [destruct b; left|]. cbn [actions_in]. right. apply elem_of_list_bind. by exists c.
Qed.
Definition table_rules (T : table) : list rule := map_to_list T ≫= snd.
Lemma table_rules_ok (T : table) (name : str) rs r : T !! name = Some rs → r ∈ rs → r ∈ table_rules T.
Proof. intros H Hr. apply elem_of_list_bind. exists (name, rs). split; [done|]. by apply elem_of_map_to_list. Qed.
Definition table_actions (T : table) : list action := table_rules T ≫= λ r, actions_in (r_action r).
Lemma table_actions_ok T a : has_action T a → a ∈ table_actions T.
Proof. intros (n & rs & r & H & Hr & Hw). apply elem_of_list_bind. exists r. split; [by apply actions_in_ok|by eapply table_rules_ok]. Qed.
Lemma elsewhere_check X T :
  forallb (λ r, forallb (λ a, forallb (λ x, negb (looks_b X (r_predicate r) x)) (spots_changed a)) (table_actions T)) (table_rules T) = true → looks_elsewhere X T.
Proof.
  intros H p a x (n & rs & r & Hn & Hr & <-) Ha%table_actions_ok Hx Hc%spots_changed_ok. rewrite forallb_forall in H.
  specialize (H r ltac:(by eapply elem_of_list_In, table_rules_ok)). rewrite forallb_forall in H. specialize (H a ltac:(by apply elem_of_list_In)).
  rewrite forallb_forall in H. specialize (H x ltac:(by apply elem_of_list_In)). by rewrite (looks_b_ok _ _ _ Hx) in H.
Qed.

(** What the bank says decides the account; a shop gets its proper name. *)
Definition ag_start : list rule :=
  [ rule1 (PAll [PNot (PHasValueTag (s2l "bank")); PFlagTag (MMatches (s2l "^fp-b"))]) (AAll [ASetAccount (s2l "assets:first"); AJump (s2l "name")]);
    rule2 (PValueTag (s2l "bank") (MEq (s2l "Other"))) (ASetAccount (s2l "assets:other"));
    rule1 PTrue (AAddTrnValue (s2l "by") (s2l "rules")) ].
Definition ag_name : list rule := [ rule1 PTrue (AAll [AReplaceDescription (s2l "market") (s2l "Big Market"); AAddPostFlag (s2l "named")]) ].
Definition ag_F : rules_fs :=
  RulesFs (λ p, if str_eqb p (s2l "/r/main") then Some [EChain (s2l "name") ag_name; EChain (s2l "start") ag_start] else None)
    (λ p, if str_eqb p (s2l "/r/main") then Some p else None) (λ _, Some (s2l "/r")) (λ d p, d ++ s2l "/" ++ p).
Definition ag_T : table := match load_from_path ag_F default_order 7 (s2l "/r/main") with Some (Ok T) => T | _ => ∅ end.
Definition ag_out : list transaction_postings := match update_transactions rx_X default_order ag_T 3 ex_s0 with Some (Ok l) => l | _ => [] end.
Lemma ag_elsewhere : looks_elsewhere rx_X ag_T.
Proof. apply elsewhere_check. vm_compute. reflexivity. Qed.
Lemma ag_once : replaces_once rx_X ag_T.
Proof.
  intros r s r' s' d H H'.
  assert (∀ r s, has_action ag_T (AReplaceDescription r s) → (r, s) = (s2l "market", s2l "Big Market")) as Hu.
  { clear. intros r s H%table_actions_ok. assert (Forall (λ a, match a with AReplaceDescription r s => (r, s) = (s2l "market", s2l "Big Market") | _ => True end) (table_actions ag_T)) as HF.
    { apply Forall_forall. intros a Ha. assert (forallb (λ a, match a with AReplaceDescription r s => str_eqb r (s2l "market") && str_eqb s (s2l "Big Market") | _ => true end) (table_actions ag_T) = true) as Hb by (vm_compute; reflexivity).
      rewrite forallb_forall in Hb. specialize (Hb a ltac:(by apply elem_of_list_In)). destruct a; try exact I.
      apply andb_true_iff in Hb as [H1 H2]. apply bool_decide_eq_true in H1. apply bool_decide_eq_true in H2. by rewrite H1, H2. }
    rewrite Forall_forall in HF. exact (HF _ H). }
  pose proof (Hu _ _ H) as E. injection E as -> ->. pose proof (Hu _ _ H') as E. injection E as -> ->.
  cbn [rx_X rx_replace]. destruct (contains (s2l "market") d) eqn:Ed; [|by rewrite Ed]. reflexivity.
Qed.
Lemma ag_ruled X T n tps J : is_Some (T !! s2l "start") → update_transactions X default_order T n tps = Some (Ok J) → ruled X T tps J.
Proof. intros Hs H. apply (c54_journal X default_order); [exact default_order_ok|done|by exists n]. Qed.

(** Rules for postings of one account only. *)
Definition ag_unknown : table :=
  {[ s2l "start" := [ rule2 (PAll [is_account unknown; PDescription (MEq (s2l "shop"))]) (AAll [ASetAccount food; ARemovePostFlag (s2l "unknown-account")]) ] ]}.
Lemma ag_only X : only_for X ag_unknown (λ p, p_account (pi_raw p) = unknown).
Proof.
  intros rs r c H Hr Hh. unfold ag_unknown in H. rewrite lookup_singleton in H. injection H as <-. apply elem_of_list_singleton in Hr as ->.
  cbn [r_predicate rule2] in Hh. inversion Hh as [|? H| | | | | | | |]; subst. specialize (H (is_account unknown) ltac:(left)). inversion H; subst. done.
Qed.
Lemma ag_leaves : leaves_transactions ag_unknown.
Proof.
  intros a x Ha%table_actions_ok Hx%spots_changed_ok.
  assert (Forall (λ a, Forall (λ x, x = AccountSpot ∨ (∃ t, x = FlagSpot t) ∨ ∃ k, x = ValueSpot k) (spots_changed a)) (table_actions ag_unknown)) as H.
  { vm_compute. repeat (apply Forall_cons; split); try apply Forall_nil; try done.
    - by left.
    - right; left; by eexists. }
  rewrite Forall_forall in H. specialize (H a Ha). rewrite Forall_forall in H. by apply H.
Qed.

(** Two accounts that take turns. *)
Definition ag_swap : table := {[ s2l "start" := [ rule2 (is_account bank) (ASetAccount food); rule2 (is_account food) (ASetAccount bank) ] ]}.
Definition ag_one (a : str) : list transaction_postings := [ex_tp day1 (s2l "shop") [ex_post a 500 [s2l "fp-a"]]].
Lemma ag_swaps X : ruled X ag_swap (ag_one bank) (ag_one food) ∧ ruled X ag_swap (ag_one food) (ag_one bank).
Proof. split; apply (ag_ruled X _ 2); [by eexists|vm_compute; reflexivity|by eexists|vm_compute; reflexivity]. Qed.
Lemma ag_refuted X : ∃ T A B, ruled X T A B ∧ ruled X T B A ∧ ¬ ruled X T B B.
Proof.
  exists ag_swap, (ag_one bank), (ag_one food). destruct (ag_swaps X) as [H1 H2]. split; [done|]. split; [done|]. intros H.
  pose proof (ruled_det _ _ _ _ _ H H2) as E. revert E. vm_compute. discriminate.
Qed.
Definition ag_settled : list transaction_postings := match update_transactions rx_X default_order ag_unknown 3 (ag_one unknown) with Some (Ok l) => l | _ => [] end.

(** The command with the first table. *)
Lemma ag_one_file : one_file ag_F.
Proof. intros p q. cbn [rf_canonical ag_F]. destruct (str_eqb p (s2l "/r/main")) eqn:E; [|discriminate]. intros H. by injection H as <-. Qed.
Lemma ag_all : all_paths ag_F [s2l "/r/main"].
Proof. intros p q. cbn [rf_canonical ag_F]. destruct (str_eqb p (s2l "/r/main")) eqn:E; [|done]. intros [= <-]. apply bool_decide_eq_true in E as ->. left. Qed.
Lemma ag_loaded : rules_loaded ag_F (s2l "/r/main") ag_T.
Proof.
  eapply (load_from_path_ok _ default_order 7); [exact default_order_ok|exact ag_one_file|vm_compute; reflexivity].
Qed.
Definition ag_read : list transaction_postings := transaction_postings_of <$> ledger_trns ex_l1.
Definition ag_J : list transaction_postings := match update_transactions rx_X default_order ag_T 3 ag_read with Some (Ok l) => l | _ => [] end.
Definition ag_E : env := ex_env (ex_c0 ++ [(s2l "RULED", into_ledger default_order ag_J)]).
Definition ag_run := rules_cmd ag_E rx_X ag_F default_order 7 (s2l "/r/main") (Path (s2l "a")) (Path (s2l "out")) ex_w.
Lemma ag_runs : rules_cmd ag_E rx_X ag_F default_order 7 (s2l "/r/main") (Path (s2l "a")) (Path (s2l "out")) ex_w = (ag_run.1, Ok (Some tt)).
Proof. vm_compute. reflexivity. Qed.
Lemma ag_back tps J : journal_read ag_E ex_w (Path (s2l "a")) tps → ruled rx_X ag_T tps J → reads_back ag_E J.
Proof.
  intros H HJ. assert (journal_read ag_E ex_w (Path (s2l "a")) ag_read) as H'.
  { exists ex_l1, ex_w. split_and!; [|by_compute|done]. refine (reads_path _ _ _ (s2l "J1") _ _ _ _); vm_compute; reflexivity. }
  rewrite (journal_read_fun _ _ _ _ _ H H') in HJ. assert (J = ag_J) as ->.
  { eapply ruled_det; [exact HJ|]. apply (ag_ruled rx_X ag_T 3); [by eexists|vm_compute; reflexivity]. }
  split.
  - intros ho Hho. rewrite (into_ledger_order ho default_order _ Hho default_order_ok). vm_compute. reflexivity.
  - intros tp Htp. split.
    + refine (writable_compute ag_J _ tp Htp). by_compute.
    + assert (Forall (λ tp, source_tag tp = None) ag_J) as HF by by_compute. rewrite Forall_forall in HF. by apply HF.
Qed.

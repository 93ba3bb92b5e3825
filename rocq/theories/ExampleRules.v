(** Proofs about the rules of examples/rules.ron. *)
From Verif Require Import MergeClaims.
From stdpp Require Import gmap list relations.
From Verif Require Import Base Types CommentModel MergeModel CmdModel SpecBase BaseProofs CmdClaims EditClaims
  RulesModel RulesClaims RulesProofs RulesLaws RulesExamples ExampleRulesModel ExampleRulesClaims.
Local Open Scope nat_scope.

Definition ex_rules_T : table :=
  <[s2l "nationwide" := ex_rules_nationwide]> (<[s2l "income" := ex_rules_income]> (<[s2l "expenses" := ex_rules_expenses]> (<[s2l "bank_account" := ex_rules_bank_account]> (<[s2l "assign" := ex_rules_assign]> (<[s2l "mark-unknown" := ex_rules_mark_unknown]> (<[s2l "clean" := ex_rules_clean]> (<[s2l "start" := ex_rules_start]> ∅))))))).

Lemma at_start : ex_rules_T !! START_CHAIN = Some ex_rules_start. Proof. vm_compute. reflexivity. Qed.
Lemma at_clean : ex_rules_T !! s2l "clean" = Some ex_rules_clean. Proof. vm_compute. reflexivity. Qed.
Lemma at_mark : ex_rules_T !! s2l "mark-unknown" = Some ex_rules_mark_unknown. Proof. vm_compute. reflexivity. Qed.
Lemma at_assign : ex_rules_T !! s2l "assign" = Some ex_rules_assign. Proof. vm_compute. reflexivity. Qed.
Lemma at_bank : ex_rules_T !! s2l "bank_account" = Some ex_rules_bank_account. Proof. vm_compute. reflexivity. Qed.
Lemma at_expenses : ex_rules_T !! s2l "expenses" = Some ex_rules_expenses. Proof. vm_compute. reflexivity. Qed.
Lemma at_income : ex_rules_T !! s2l "income" = Some ex_rules_income. Proof. vm_compute. reflexivity. Qed.
Lemma at_nationwide : ex_rules_T !! s2l "nationwide" = Some ex_rules_nationwide. Proof. vm_compute. reflexivity. Qed.

(** The chains, run. *)
Definition do_mark : rctx → rctx := on_post_comment (set_tags (λ s, {[s2l "unknown-account"]} ∪ s)).
Definition do_unmark : rctx → rctx := on_post_comment (set_tags (λ s, s ∖ {[s2l "unknown-account"]})).
Definition do_forget (k : str) : rctx → rctx := on_post_comment (set_value_tags (delete k)).
Definition is_desc (s : string) (c : rctx) : bool := str_eqb (s2l s) (t_description (ti_raw (rc_trn c))).
Definition is_acc (s : string) (c : rctx) : bool := str_eqb (s2l s) (p_account (pi_raw (rc_post c))).
Definition is_val (k v : string) (c : rctx) : bool :=
  match value_tags (pi_comment (rc_post c)) !! s2l k with Some x => str_eqb (s2l v) x | None => false end.
Definition do_expenses (c : rctx) : rctx :=
  if is_desc "ATM Withdrawal" c then on_account (s2l "expenses:petty") c else do_mark c.
Definition do_income (c : rctx) : rctx :=
  if is_desc "Payroll" c then on_account (s2l "income:salary") c else
  if is_val "trn_type" "Interest" c then on_account (s2l "income:interest") c else do_mark c.
Definition do_nationwide (c : rctx) : rctx :=
  if is_val "account" "Current" c then on_account (s2l "assets:nationwide:current") c else
  if is_val "account" "Savings" c then on_account (s2l "assets:nationwide:savings") c else do_mark c.
Definition do_bank (c : rctx) : rctx :=
  if is_val "bank" "Nationwide" c then do_nationwide (do_forget (s2l "bank") c) else do_mark c.
Definition do_assign (c0 : rctx) : rctx :=
  let c := do_unmark c0 in
  if is_acc "expenses:unknown" c then do_expenses c else
  if is_acc "income:unknown" c then do_income c else
  if bool_decide (is_Some (value_tags (pi_comment (rc_post c)) !! s2l "bank")) then do_bank c else do_mark c.
Definition do_clean (c : rctx) : rctx := do_forget (s2l "trn_type") (do_forget (s2l "bank") (do_forget (s2l "account") c)).

Section run.
  Context (X : text_env) (ho : hash_order).
  Notation chain := (apply_chain X ho ex_rules_T).
  Ltac enter H := cbn [apply_chain]; rewrite H.
  Ltac go := cbn [apply_rules]; unfold apply_rule; cbn [r_predicate r_action r_result is_match matches_string failed_to_match account_eq value_eq].
  Lemma run_mark n c : chain (S n) (s2l "mark-unknown") c = Some (Ok (do_mark c)).
  Proof. enter at_mark. unfold ex_rules_mark_unknown. go. cbn [apply_action run_bind]. reflexivity. Qed.
  Lemma run_clean n c : chain (S n) (s2l "clean") c = Some (Ok (do_clean c)).
  Proof. enter at_clean. unfold ex_rules_clean. go. cbn [apply_action run_bind]. reflexivity. Qed.
  Lemma run_failed n c : apply_rules X ho (chain (S n)) [failed_to_match] c = Some (Ok (do_mark c)).
  Proof. go. cbn [apply_action]. rewrite run_mark. cbn [run_bind]. reflexivity. Qed.
  Lemma run_expenses n c : chain (S (S n)) (s2l "expenses") c = Some (Ok (do_expenses c)).
  Proof.
    change (chain (S (S n)) (s2l "expenses") c) with
      (match ex_rules_T !! s2l "expenses" with None => Some (Err EChainNotFound) | Some rs => apply_rules X ho (chain (S n)) rs c end).
    rewrite at_expenses. unfold ex_rules_expenses, do_expenses, is_desc. cbn [apply_rules]. unfold apply_rule at 1. cbn [r_predicate r_action r_result is_match matches_string].
    destruct (str_eqb _ _); cbn [apply_action run_bind]; [reflexivity|]. exact (run_failed n c).
  Qed.
  Lemma run_income n c : chain (S (S n)) (s2l "income") c = Some (Ok (do_income c)).
  Proof.
    change (chain (S (S n)) (s2l "income") c) with
      (match ex_rules_T !! s2l "income" with None => Some (Err EChainNotFound) | Some rs => apply_rules X ho (chain (S n)) rs c end).
    rewrite at_income. unfold ex_rules_income, do_income, is_desc, is_val. cbn [apply_rules]. unfold apply_rule at 1. cbn [r_predicate r_action r_result is_match matches_string].
    destruct (str_eqb _ _); cbn [apply_action run_bind]; [reflexivity|].
    unfold apply_rule at 1. unfold value_eq. cbn [r_predicate r_action r_result is_match matches_string].
    destruct (value_tags (pi_comment (rc_post c)) !! s2l "trn_type") as [v|]; [destruct (str_eqb _ v); [reflexivity|]|]; exact (run_failed n c).
  Qed.
  Lemma run_nationwide n c : chain (S (S n)) (s2l "nationwide") c = Some (Ok (do_nationwide c)).
  Proof.
    change (chain (S (S n)) (s2l "nationwide") c) with
      (match ex_rules_T !! s2l "nationwide" with None => Some (Err EChainNotFound) | Some rs => apply_rules X ho (chain (S n)) rs c end).
    rewrite at_nationwide. unfold ex_rules_nationwide, do_nationwide, is_val. cbn [apply_rules]. unfold apply_rule at 1, value_eq at 1. cbn [r_predicate r_action r_result is_match matches_string].
    destruct (value_tags (pi_comment (rc_post c)) !! s2l "account") as [v|] eqn:Ev; [destruct (str_eqb (s2l "Current") v); [reflexivity|]|]; cbn [run_bind];
      unfold apply_rule at 1, value_eq; cbn [r_predicate r_action r_result is_match matches_string]; rewrite Ev.
    - destruct (str_eqb (s2l "Savings") v); [reflexivity|]. exact (run_failed n c).
    - exact (run_failed n c).
  Qed.
  Lemma run_bank n c : chain (S (S (S n))) (s2l "bank_account") c = Some (Ok (do_bank c)).
  Proof.
    change (chain (S (S (S n))) (s2l "bank_account") c) with
      (match ex_rules_T !! s2l "bank_account" with None => Some (Err EChainNotFound) | Some rs => apply_rules X ho (chain (S (S n))) rs c end).
    rewrite at_bank. unfold ex_rules_bank_account, do_bank, is_val. cbn [apply_rules]. unfold apply_rule at 1, value_eq. cbn [r_predicate r_action r_result is_match matches_string].
    destruct (value_tags (pi_comment (rc_post c)) !! s2l "bank") as [v|] eqn:Ev; [destruct (str_eqb (s2l "Nationwide") v)|]; [|exact (run_failed (S n) c)|exact (run_failed (S n) c)].
    rewrite apply_action_all. cbn [apply_list apply_action run_bind]. rewrite run_nationwide. reflexivity.
  Qed.
  Lemma run_assign n c : chain (S (S (S (S n)))) (s2l "assign") c = Some (Ok (do_assign c)).
  Proof.
    change (chain (S (S (S (S n)))) (s2l "assign") c) with
      (match ex_rules_T !! s2l "assign" with None => Some (Err EChainNotFound) | Some rs => apply_rules X ho (chain (S (S (S n)))) rs c end).
    rewrite at_assign. unfold ex_rules_assign, do_assign, is_acc. cbn [apply_rules]. unfold apply_rule at 1.
    cbn [r_predicate r_action r_result is_match apply_action run_bind]. fold do_unmark. change (on_post_comment (set_tags (λ s, s ∖ {[s2l "unknown-account"]})) c) with (do_unmark c).
    set (d := do_unmark c). clearbody d. cbv zeta.
    unfold apply_rule at 1. unfold account_eq at 1. cbn [r_predicate r_action r_result is_match matches_string].
    destruct (str_eqb (s2l "expenses:unknown") _); [cbn [apply_action]; rewrite run_expenses; reflexivity|]. cbn [run_bind].
    unfold apply_rule at 1. unfold account_eq. cbn [r_predicate r_action r_result is_match matches_string].
    destruct (str_eqb (s2l "income:unknown") _); [cbn [apply_action]; rewrite run_income; reflexivity|]. cbn [run_bind].
    unfold apply_rule at 1. cbn [r_predicate r_action r_result is_match].
    destruct (bool_decide _); [cbn [apply_action]; rewrite run_bank; reflexivity|]. exact (run_failed (S (S n)) d).
  Qed.
  Lemma run_start n c : chain (S (S (S (S (S n))))) START_CHAIN c = Some (Ok (do_clean (do_assign c))).
  Proof.
    change (chain (S (S (S (S (S n))))) START_CHAIN c) with
      (match ex_rules_T !! START_CHAIN with None => Some (Err EChainNotFound) | Some rs => apply_rules X ho (chain (S (S (S (S n))))) rs c end).
    rewrite at_start. unfold ex_rules_start. cbn [apply_rules]. unfold apply_rule. cbn [r_predicate r_action r_result is_match].
    rewrite apply_action_all. cbn [apply_list apply_action]. rewrite run_assign. cbn [run_bind]. rewrite run_clean. reflexivity.
  Qed.
End run.

(** * What becomes of a posting *)

Definition assigned_fun (d : str) (p : posting_internal) : option str :=
  if decide (p_account (pi_raw p) = s2l "expenses:unknown") then (if decide (d = s2l "ATM Withdrawal") then Some (s2l "expenses:petty") else None) else
  if decide (p_account (pi_raw p) = s2l "income:unknown") then
    (if decide (d = s2l "Payroll") then Some (s2l "income:salary") else
     if decide (value_of p (s2l "trn_type") = Some (s2l "Interest")) then Some (s2l "income:interest") else None) else
  if decide (value_of p (s2l "bank") = Some (s2l "Nationwide")) then
    (if decide (value_of p (s2l "account") = Some (s2l "Current")) then Some (s2l "assets:nationwide:current") else
     if decide (value_of p (s2l "account") = Some (s2l "Savings")) then Some (s2l "assets:nationwide:savings") else None)
  else None.
Lemma ex_ne : s2l "expenses:unknown" ≠ s2l "income:unknown" ∧ s2l "Current" ≠ s2l "Savings". Proof. split; by_compute. Qed.
Lemma assigned_iff d p a : assigned d p a ↔ assigned_fun d p = Some a.
Proof.
  destruct ex_ne as [He Hc]. unfold assigned_fun. split.
  - intros [H1 H2|H1 H2|H1 H2 H3|H1 H2 H3|H1 H2 H3].
    + by rewrite !decide_True.
    + rewrite (decide_False (P := _ = s2l "expenses:unknown")) by (rewrite H1; by apply not_eq_sym). by rewrite !decide_True.
    + rewrite (decide_False (P := _ = s2l "expenses:unknown")) by (rewrite H1; by apply not_eq_sym).
      rewrite decide_True by done. rewrite decide_False by done. by rewrite decide_True.
    + apply not_elem_of_cons in H1 as [H1 [H1' _]%not_elem_of_cons]. rewrite !(decide_False (P := p_account _ = _)) by done. by rewrite !decide_True.
    + apply not_elem_of_cons in H1 as [H1 [H1' _]%not_elem_of_cons]. rewrite !(decide_False (P := p_account _ = _)) by done.
      rewrite decide_True by done. rewrite decide_False by (rewrite H3; intros [= E]; by destruct Hc). by rewrite decide_True.
  - assert (p_account (pi_raw p) ≠ s2l "expenses:unknown" → p_account (pi_raw p) ≠ s2l "income:unknown" →
      p_account (pi_raw p) ∉ [s2l "expenses:unknown"; s2l "income:unknown"]) as Hn.
    { intros H1 H2. apply not_elem_of_cons. split; [done|]. apply not_elem_of_cons. split; [done|]. apply not_elem_of_nil. }
    repeat case_decide; intros E; try discriminate E; apply (inj Some) in E; subst a;
      [by apply cash_withdrawn|by apply salary_paid|by apply interest_paid|apply current_account; auto|apply savings_account; auto].
Qed.

Definition final (o : option str) (p : posting_internal) : posting_internal :=
  PI (match o with Some a => set_account a (pi_raw p) | None => pi_raw p end)
     (Comment (lines (pi_comment p))
        (match o with Some _ => tags (pi_comment p) ∖ {[s2l "unknown-account"]} | None => {[s2l "unknown-account"]} ∪ tags (pi_comment p) end)
        (delete (s2l "trn_type") (delete (s2l "bank") (delete (s2l "account") (value_tags (pi_comment p)))))).
Lemma str_eqb_decide (a b : str) {A} (x y : A) : (if str_eqb a b then x else y) = if decide (b = a) then x else y.
Proof. unfold str_eqb. destruct (decide (b = a)) as [->|H]; [by rewrite bool_decide_eq_true_2|]. rewrite bool_decide_eq_false_2; [done|congruence]. Qed.
Lemma is_val_decide k v c {A} (x y : A) : (if is_val k v c then x else y) = if decide (value_of (rc_post c) (s2l k) = Some (s2l v)) then x else y.
Proof.
  unfold is_val, value_of. destruct (value_tags (pi_comment (rc_post c)) !! s2l k) as [w|]; [|by rewrite decide_False].
  rewrite str_eqb_decide. destruct (decide (w = s2l v)) as [->|H]; [by rewrite decide_True|]. rewrite decide_False; [done|]. intros [= E]; done.
Qed.
Lemma tags_remark (s : gset str) x : {[x]} ∪ s ∖ {[x]} = {[x]} ∪ s.
Proof. apply set_eq. intros y. rewrite !elem_of_union, elem_of_difference, !elem_of_singleton. destruct (decide (y = x)); tauto. Qed.
Lemma do_final t p : do_clean (do_assign (RCtx t p)) = RCtx t (final (assigned_fun (t_description (ti_raw t)) p) p).
Proof.
  destruct p as [raw [ls tg vs]].
  assert (∀ a, do_clean (on_account a (do_unmark (RCtx t (PI raw (Comment ls tg vs))))) = RCtx t (final (Some a) (PI raw (Comment ls tg vs)))) as Hacc by done.
  assert (do_clean (do_mark (do_unmark (RCtx t (PI raw (Comment ls tg vs))))) = RCtx t (final None (PI raw (Comment ls tg vs)))) as Hmark.
  { unfold do_clean, do_forget, do_mark, do_unmark, on_post_comment, set_tags, set_value_tags, final.
    cbn [rc_trn rc_post pi_raw pi_comment lines tags value_tags]. by rewrite tags_remark. }
  set (c := do_unmark (RCtx t (PI raw (Comment ls tg vs)))) in *.
  set (f := do_forget (s2l "bank") c).
  assert (∀ a, do_clean (on_account a f) = do_clean (on_account a c)) as Fa.
  { intros a. unfold f, c, do_clean, do_forget, do_unmark, on_post_comment, on_account, set_tags, set_value_tags. cbn [rc_trn rc_post pi_raw pi_comment lines tags value_tags].
    rewrite (delete_commute vs (s2l "account") (s2l "bank")), delete_idemp. done. }
  assert (do_clean (do_mark f) = do_clean (do_mark c)) as Fm.
  { unfold f, c, do_clean, do_forget, do_mark, do_unmark, on_post_comment, set_tags, set_value_tags. cbn [rc_trn rc_post pi_raw pi_comment lines tags value_tags].
    rewrite (delete_commute vs (s2l "account") (s2l "bank")), delete_idemp. done. }
  assert (∀ k, value_of (rc_post c) k = vs !! k) as Vc by done.
  assert (value_of (rc_post f) (s2l "account") = vs !! s2l "account") as Vf.
  { change (delete (s2l "bank") vs !! s2l "account" = vs !! s2l "account"). apply lookup_delete_ne. by_compute. }
  unfold do_assign, assigned_fun. cbv zeta. fold c. unfold is_acc. rewrite !str_eqb_decide.
  change (p_account (pi_raw (rc_post c))) with (p_account raw). cbn [pi_raw].
  destruct (decide (p_account raw = s2l "expenses:unknown")).
  { unfold do_expenses, is_desc. rewrite str_eqb_decide. change (rc_trn c) with t. destruct (decide (t_description (ti_raw t) = _)); auto. }
  destruct (decide (p_account raw = s2l "income:unknown")).
  { unfold do_income, is_desc. rewrite str_eqb_decide, is_val_decide. change (rc_trn c) with t. destruct (decide (t_description (ti_raw t) = _)); [auto|].
    change (value_of (PI raw (Comment ls tg vs)) (s2l "trn_type")) with (vs !! s2l "trn_type"). rewrite Vc. destruct (decide (vs !! _ = _)); auto. }
  change (value_tags (pi_comment (rc_post c)) !! s2l "bank") with (vs !! s2l "bank").
  change (value_of (PI raw (Comment ls tg vs)) (s2l "bank")) with (vs !! s2l "bank").
  change (value_of (PI raw (Comment ls tg vs)) (s2l "account")) with (vs !! s2l "account").
  destruct (decide (vs !! s2l "bank" = Some (s2l "Nationwide"))) as [E|E].
  - rewrite bool_decide_eq_true_2 by (rewrite E; eauto). unfold do_bank. rewrite is_val_decide, Vc, decide_True by done. fold f.
    unfold do_nationwide. rewrite !is_val_decide, Vf.
    destruct (decide (vs !! s2l "account" = Some (s2l "Current"))); [rewrite Fa; auto|].
    destruct (decide (vs !! s2l "account" = Some (s2l "Savings"))); [rewrite Fa; auto|]. rewrite Fm. auto.
  - case_bool_decide; [|auto]. unfold do_bank. rewrite is_val_decide, Vc, decide_False by done. auto.
Qed.
Lemma final_classified d p : classified d p (final (assigned_fun d p) p).
Proof.
  assert (∀ o, ∀ k, value_of (final o p) k = if decide (k ∈ [s2l "account"; s2l "bank"; s2l "trn_type"]) then None else value_of p k) as Hv.
  { intros o k. unfold value_of, final. cbn [pi_comment value_tags]. destruct (decide (k ∈ _)) as [H|H].
    - rewrite !elem_of_cons in H. destruct H as [->|[->|[->|[]%elem_of_nil]]].
      + rewrite 2!lookup_delete_ne by by_compute. apply lookup_delete.
      + rewrite lookup_delete_ne by by_compute. apply lookup_delete.
      + apply lookup_delete.
    - rewrite !elem_of_cons in H. rewrite !lookup_delete_ne; [done|..]; intros <-; apply H; auto. }
  split.
  - split; try done; by destruct (assigned_fun d p).
  - intros a Ha%assigned_iff. rewrite Ha. split; [done|]. unfold has_tag, final. cbn [pi_comment tags]. rewrite elem_of_difference, elem_of_singleton. tauto.
  - intros Hn. destruct (assigned_fun d p) as [a|] eqn:E; [destruct (Hn a); by apply assigned_iff|]. split; [done|].
    unfold has_tag, final. cbn [pi_comment tags]. rewrite elem_of_union, elem_of_singleton. by left.
  - intros t Ht. unfold has_tag, final. cbn [pi_comment tags]. destruct (assigned_fun d p).
    + rewrite elem_of_difference, elem_of_singleton. tauto.
    + rewrite elem_of_union, elem_of_singleton. tauto.
  - intros k Hk. by rewrite Hv, decide_True.
  - intros k Hk. by rewrite Hv, decide_False.
Qed.
Lemma classified_fun d p p' : classified d p p' → p' = final (assigned_fun d p) p.
Proof.
  intros H. pose proof (final_classified d p) as H'. destruct p as [raw [ls tg vs]], p' as [raw' [ls' tg' vs']].
  set (q := final (assigned_fun d (PI raw (Comment ls tg vs))) (PI raw (Comment ls tg vs))) in *. clearbody q. destruct q as [rq [lq tq vq]].
  destruct (cl_kept _ _ _ H) as [K1 K2 K3 K4 K5 K6], (cl_kept _ _ _ H') as [L1 L2 L3 L4 L5 L6]. cbn [pi_raw pi_comment lines] in *.
  assert (p_account raw' = p_account rq ∧ ∀ x, has_tag (PI raw' (Comment ls' tg' vs')) x ↔ has_tag (PI rq (Comment lq tq vq)) x) as [Ha Ht].
  { destruct (assigned_fun d (PI raw (Comment ls tg vs))) as [a|] eqn:E.
    - apply assigned_iff in E. destruct (cl_known _ _ _ H a E) as [A1 A2], (cl_known _ _ _ H' a E) as [B1 B2]. cbn [pi_raw] in *. split; [congruence|].
      intros x. destruct (decide (x = s2l "unknown-account")) as [->|Hx]; [tauto|]. by rewrite (cl_tags _ _ _ H), (cl_tags _ _ _ H').
    - assert (∀ a, ¬ assigned d (PI raw (Comment ls tg vs)) a) as Hn by (intros a Ha%assigned_iff; congruence).
      destruct (cl_unknown _ _ _ H Hn) as [A1 A2], (cl_unknown _ _ _ H' Hn) as [B1 B2]. cbn [pi_raw] in *. split; [congruence|].
      intros x. destruct (decide (x = s2l "unknown-account")) as [->|Hx]; [tauto|]. by rewrite (cl_tags _ _ _ H), (cl_tags _ _ _ H'). }
  assert (raw' = rq) as -> by (destruct raw', rq; cbn in *; congruence).
  assert (tg' = tq) as -> by (apply set_eq; exact Ht).
  assert (vs' = vq) as ->.
  { apply map_eq. intros k. change (value_of (PI rq (Comment ls' tq vs')) k = value_of (PI rq (Comment lq tq vq)) k).
    destruct (decide (k ∈ [s2l "account"; s2l "bank"; s2l "trn_type"])) as [Hk|Hk].
    - by rewrite (cl_gone _ _ _ H _ Hk), (cl_gone _ _ _ H' _ Hk).
    - by rewrite (cl_values _ _ _ H _ Hk), (cl_values _ _ _ H' _ Hk). }
  congruence.
Qed.

(** * Journals *)

Lemma posts_final X ho n t ps : 5 ≤ n →
  update_posts (apply_chain X ho ex_rules_T n START_CHAIN) t ps = Some (Ok (t, (λ p, final (assigned_fun (t_description (ti_raw t)) p) p) <$> ps)).
Proof.
  intros Hn. destruct n as [|[|[|[|[|n]]]]]; [lia..|]. clear Hn. induction ps as [|p ps IH]; [done|].
  cbn [update_posts]. rewrite run_start, do_final. cbn [run_bind rc_trn rc_post]. rewrite IH. cbn [run_bind]. reflexivity.
Qed.
Lemma journal_final X ho n tps : 5 ≤ n → update_transactions X ho ex_rules_T n tps =
  Some (Ok ((λ tp, TP (tp_trn tp) ((λ p, final (assigned_fun (t_description (ti_raw (tp_trn tp))) p) p) <$> tp_posts tp)) <$> tps)).
Proof.
  intros Hn. induction tps as [|tp tps IH]; [done|]. cbn [update_transactions]. unfold update_transaction. rewrite at_start, posts_final by done.
  cbn [run_bind]. rewrite IH. cbn [run_bind]. reflexivity.
Qed.
Lemma c122_outcome X ho n tps out : 5 ≤ n →
  update_transactions X ho ex_rules_T n tps = Some (Ok out) ↔ Forall2 all_classified tps out.
Proof.
  intros Hn. rewrite journal_final by done. split.
  - intros [= <-]. induction tps as [|tp tps IH]; [constructor|]. cbn [fmap list_fmap]. constructor; [|done]. split; [done|]. cbn [tp_posts].
    apply Forall2_fmap_r, Forall_Forall2_diag, Forall_forall. intros p _. apply final_classified.
  - intros H. f_equal. f_equal. induction H as [|tp tp' tps tps' [H1 H2] _ IH]; [done|]. cbn [fmap list_fmap]. rewrite IH. f_equal.
    destruct tp as [t ps], tp' as [t' ps']. cbn [tp_trn tp_posts] in *. subst t'. f_equal.
    induction H2 as [|p p' ps ps' Hp _ IHp]; [done|]. cbn [fmap list_fmap]. rewrite IHp. f_equal. symmetry. by apply classified_fun.
Qed.
Lemma c122_ends X ho n tps : 5 ≤ n → ∃ out, update_transactions X ho ex_rules_T n tps = Some (Ok out).
Proof. intros Hn. rewrite journal_final by done. eauto. Qed.

(** * Loading *)

Lemma example_loaded F ho n path : hash_order_ok ho → has_example_rules F path → 1 ≤ n → load_from_path F ho n path = Some (Ok ex_rules_T).
Proof.
  intros Hho [Ho [self Hc]] Hn. destruct n as [|n]; [lia|]. unfold load_from_path, load_file. rewrite Ho. cbn [run_bind].
  assert (load_into F (S n) path example_rules (∅, ∅) = Some (Ok (ex_rules_T, {[self]} ∪ ∅))) as ->.
  { cbn [load_into]. rewrite Hc. cbn [snd fst]. rewrite decide_False by apply not_elem_of_empty. unfold example_rules, ex_rules_T.
    cbn [fst snd]. repeat (first [rewrite lookup_empty|rewrite lookup_insert_ne by by_compute]; cbn [fst snd]). reflexivity. }
  cbn [run_bind fst]. assert (validate ho ex_rules_T = Ok tt) as ->; [|done].
  apply validate_spec; [done|]. split; [exists ex_rules_start; exact at_start|].
  assert (map_Forall (λ _ rs, Forall (λ r, Forall (λ m, is_Some (ex_rules_T !! m)) (jump_names (r_action r))) rs) ex_rules_T) as H by by_compute.
  intros name rs r m Hrs Hr Hm. specialize (H name rs Hrs). cbn beta in H. rewrite Forall_forall in H. specialize (H r Hr). rewrite Hm in H. cbn [jump_names] in H.
  rewrite Forall_forall in H. apply H. left.
Qed.

(** The rules leave fingerprints alone. *)
Fixpoint flag_names (a : action) : list str :=
  match a with AAddPostFlag t | ARemovePostFlag t => [t] | AAll l => l ≫= flag_names | _ => [] end.
Lemma flag_names_spec b a : within b a → ∀ t, t ∈ flag_names b → t ∈ flag_names a.
Proof. induction 1 as [|b' l Hb _ IH]; cbn [flag_names]; [done|]. intros t Ht. apply elem_of_list_bind. eauto. Qed.
Lemma example_leaves : leaves_fingerprints ex_rules_T.
Proof.
  assert (map_Forall (λ _ rs, Forall (λ r, Forall (λ t, t = s2l "unknown-account") (flag_names (r_action r))) rs) ex_rules_T) as H by by_compute.
  assert (∀ b t, has_action ex_rules_T b → t ∈ flag_names b → t = s2l "unknown-account") as Hall.
  { intros b t (name & rs & r & Hrs & Hr & Hw) Ht. specialize (H name rs Hrs). cbn beta in H. rewrite Forall_forall in H. specialize (H r Hr).
    rewrite Forall_forall in H. apply H. by apply (flag_names_spec b). }
  intros t Ht. assert (t ≠ s2l "unknown-account") as Hne.
  { intros ->. destruct Ht as [[x E]|[x E]]; revert E; [|]; vm_compute; discriminate. }
  split; intros Ha; apply Hne; apply (Hall _ t Ha); left.
Qed.

(** Proofs for C148: what rules look at. *)
From stdpp Require Import gmap list.
From Verif Require Import Base Types CommentModel MergeModel CmdModel SpecBase BaseProofs RulesModel RulesClaims RulesProofs SeenClaims.
Local Open Scope nat_scope.

Section seen.
Context (Q : comment → comment → Prop).
Context (Q_tags : ∀ f c c', Q c c' → Q (set_tags f c) (set_tags f c')).
Context (Q_values : ∀ f c c', Q c c' → Q (set_value_tags f c) (set_value_tags f c')).

Definition trn_alike (t t' : transaction_internal) : Prop :=
  t_description (ti_raw t') = t_description (ti_raw t) ∧ Q (ti_comment t) (ti_comment t').
Definition ctx_alike (c c' : rctx) : Prop := trn_alike (rc_trn c) (rc_trn c') ∧ post_looks (rc_post c) (rc_post c').

Lemma alike_match X ho p c c' : ctx_alike c c' → is_match X ho p c' = is_match X ho p c.
Proof.
  intros [[H1 _] (H2 & H3 & H4)]. induction p as [l IH|l IH|m|m|t|k|k m|p IH|m|] using predicate_nest; cbn [is_match]; rewrite ?H1, ?H2, ?H3, ?H4; try done.
  - induction IH as [|p l Hp _ IH]; [done|]. cbn. by rewrite Hp, IH.
  - induction IH as [|p l Hp _ IH]; [done|]. cbn. by rewrite Hp, IH.
  - by rewrite IH.
Qed.
Lemma alike_bind {A B} (P : A → A → Prop) (P' : B → B → Prop) r r' k k' : run_alike P r r' → (∀ a a', P a a' → run_alike P' (k a) (k' a')) →
  run_alike P' (run_bind r k) (run_bind r' k').
Proof. intros H Hk. destruct r as [[]|], r' as [[]|]; try done. cbn in *. by apply Hk. Qed.
Lemma alike_action X j j' a : (∀ n c c', ctx_alike c c' → run_alike ctx_alike (j n c) (j' n c')) →
  ∀ c c', ctx_alike c c' → run_alike ctx_alike (apply_action X j a c) (apply_action X j' a c').
Proof.
  intros Hj. induction a as [l IH|a Ha] using action_nest; intros c c' Hc.
  - rewrite !apply_action_all. revert c c' Hc. induction IH as [|a l Ha _ IH]; intros c c' Hc; [done|]. cbn [apply_list].
    eapply alike_bind; [by apply Ha|]. exact IH.
  - destruct Hc as [[H1 H2] (H3 & H4 & H5)].
    destruct a; try by (cbn; repeat split; cbn; rewrite ?H1, ?H3, ?H4, ?H5; auto).
    + by destruct (Ha l).
    + cbn. apply Hj. by repeat split.
Qed.
Lemma alike_rules X ho j j' rs : (∀ n c c', ctx_alike c c' → run_alike ctx_alike (j n c) (j' n c')) →
  ∀ c c', ctx_alike c c' → run_alike ctx_alike (apply_rules X ho j rs c) (apply_rules X ho j' rs c').
Proof.
  intros Hj. induction rs as [|r rs IH]; intros c c' Hc; [done|]. cbn [apply_rules].
  apply (alike_bind (λ x x', x.1 = x'.1 ∧ ctx_alike x.2 x'.2)).
  - unfold apply_rule. rewrite (alike_match X ho _ c c' Hc). destruct (is_match X ho (r_predicate r) c); [|done].
    eapply alike_bind; [by apply alike_action|]. by intros d d' Hd.
  - intros [res d] [res' d'] [Hr Hd]. cbn in *. subst res'. destruct res; [by apply IH|done].
Qed.
Lemma alike_chain X ho T n : ∀ name c c', ctx_alike c c' → run_alike ctx_alike (apply_chain X ho T n name c) (apply_chain X ho T n name c').
Proof.
  induction n as [|n IH]; intros name c c' Hc; [done|]. cbn [apply_chain]. destruct (T !! name); [|done]. by apply alike_rules.
Qed.
Lemma alike_posts chain : (∀ c c', ctx_alike c c' → run_alike ctx_alike (chain c) (chain c')) →
  ∀ ps ps', Forall2 post_looks ps ps' → ∀ t t', trn_alike t t' →
  run_alike (λ x x', trn_alike x.1 x'.1 ∧ Forall2 post_looks x.2 x'.2) (update_posts chain t ps) (update_posts chain t' ps').
Proof.
  intros Hc ps ps'. induction 1 as [|p p' ps ps' Hp H IH]; intros t t' Ht; [split; [done|constructor]|]. cbn [update_posts].
  eapply alike_bind; [by apply Hc|]. intros c c' [H1 H2]. eapply alike_bind; [by apply IH|].
  intros [t1 l] [t1' l'] [H3 H4]. cbn in *. split; [done|]. by constructor.
Qed.
Definition tp_alike (tp tp' : transaction_postings) : Prop := trn_alike (tp_trn tp) (tp_trn tp') ∧ Forall2 post_looks (tp_posts tp) (tp_posts tp').
Lemma alike_update X ho T n tps tps' : Forall2 tp_alike tps tps' →
  run_alike (Forall2 tp_alike) (update_transactions X ho T n tps) (update_transactions X ho T n tps').
Proof.
  induction 1 as [|tp tp' tps tps' [H1 H2] H IH]; [constructor|]. cbn [update_transactions].
  apply (alike_bind tp_alike).
  - unfold update_transaction. destruct (T !! START_CHAIN); [|done].
    eapply alike_bind; [apply alike_posts; [apply alike_chain|done|done]|]. intros [t ts] [t' ts'] [H3 H4]. by split.
  - intros a a' Ha. eapply alike_bind; [exact IH|]. intros l l' Hl. cbn. by constructor.
Qed.
End seen.

Lemma c148 X ho T n tps tps' : Forall2 looks_alike tps tps' →
  run_alike (Forall2 looks_alike) (update_transactions X ho T n tps) (update_transactions X ho T n tps').
Proof.
  intros H. pose proof (alike_update (λ _ _, True) (λ _ _ _ _, I) (λ _ _ _ _, I) X ho T n tps tps') as HU.
  assert (∀ l l', Forall2 looks_alike l l' ↔ Forall2 (tp_alike (λ _ _, True)) l l') as He.
  { intros l l'. split; intros HF; (eapply Forall2_impl; [exact HF|]); intros tp tp'; unfold looks_alike, tp_alike, trn_alike; naive_solver. }
  specialize (HU (proj1 (He _ _) H)). destruct (update_transactions X ho T n tps) as [[]|], (update_transactions X ho T n tps') as [[]|]; try done.
  cbn in *. by apply He.
Qed.
Lemma c148_tags X ho T n tps tps' : Forall2 (λ tp tp', looks_alike tp tp' ∧ tagged_alike tp tp') tps tps' →
  run_alike (Forall2 (λ tp tp', looks_alike tp tp' ∧ tagged_alike tp tp')) (update_transactions X ho T n tps) (update_transactions X ho T n tps').
Proof.
  intros H. set (Q := λ c c' : comment, tags c' = tags c ∧ value_tags c' = value_tags c).
  assert (HT : ∀ f c c', Q c c' → Q (set_tags f c) (set_tags f c')) by (intros f c c' [A B]; split; cbn; by rewrite ?A, ?B).
  assert (HV : ∀ f c c', Q c c' → Q (set_value_tags f c) (set_value_tags f c')) by (intros f c c' [A B]; split; cbn; by rewrite ?A, ?B).
  pose proof (alike_update Q HT HV X ho T n tps tps') as HU.
  assert (∀ l l', Forall2 (λ tp tp', looks_alike tp tp' ∧ tagged_alike tp tp') l l' ↔ Forall2 (tp_alike Q) l l') as He.
  { intros l l'. split; intros HF; (eapply Forall2_impl; [exact HF|]); intros tp tp'; unfold looks_alike, tp_alike, trn_alike, tagged_alike; subst Q; naive_solver. }
  specialize (HU (proj1 (He _ _) H)). destruct (update_transactions X ho T n tps) as [[]|], (update_transactions X ho T n tps') as [[]|]; try done.
  cbn in *. by apply He.
Qed.

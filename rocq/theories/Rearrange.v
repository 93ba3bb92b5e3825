(** Rearranging tables of rules (C120). *)
From stdpp Require Import gmap list relations.
From Verif Require Import Base Types CommentModel MergeModel CmdModel SpecBase BaseProofs CmdClaims RulesModel RulesClaims RulesProofs RulesLaws RulesLoad RulesCmd RearrangeClaims.
From Coq Require Import Lia.
Local Open Scope nat_scope.

(** ** From chains to journals *)
Lemma posts_follow X ho T T' n : (∀ c out, apply_chain X ho T n START_CHAIN c = Some out → ∃ n', apply_chain X ho T' n' START_CHAIN c = Some out) →
  ∀ ps t out, update_posts (apply_chain X ho T n START_CHAIN) t ps = Some out → ∃ n', update_posts (apply_chain X ho T' n' START_CHAIN) t ps = Some out.
Proof.
  intros H ps. induction ps as [|p ps IH]; intros t out; [by exists 0|]. cbn [update_posts].
  intros [(c & E & E2)|[(e & E & ->)|[E ->]]]%run_bind_some; destruct (H _ _ E) as [n1 H1].
  - apply run_bind_some in E2 as [([t2 ps2] & E2 & E3)|[(e & E2 & ->)|[E2 ->]]]; destruct (IH _ _ E2) as [n2 H2]; exists (n1 `max` n2);
      rewrite (apply_chain_grows X ho T' n1 (n1 `max` n2) ltac:(lia) _ _ _ H1); cbn [run_bind];
      rewrite (update_posts_grows X ho T' n2 (n1 `max` n2) _ _ _ ltac:(lia) H2); done.
  - exists n1. by rewrite H1.
  - exists n1. by rewrite H1.
Qed.
Lemma journal_follow X ho T T' n : (is_Some (T !! START_CHAIN) ↔ is_Some (T' !! START_CHAIN)) →
  (∀ c out, apply_chain X ho T n START_CHAIN c = Some out → ∃ n', apply_chain X ho T' n' START_CHAIN c = Some out) →
  ∀ tps out, update_transactions X ho T n tps = Some out → ∃ n', update_transactions X ho T' n' tps = Some out.
Proof.
  intros Hs H. assert (∀ tp out, update_transaction X ho T n tp = Some out → ∃ n', update_transaction X ho T' n' tp = Some out) as H1.
  { intros tp out. unfold update_transaction. destruct (T !! START_CHAIN) as [rs|], (T' !! START_CHAIN) as [rs'|].
    - intros [([t2 ps2] & E & E2)|[(e & E & ->)|[E ->]]]%run_bind_some; destruct (posts_follow X ho T T' n H _ _ _ E) as [n1 E1]; exists n1; by rewrite E1.
    - by destruct (proj1 Hs ltac:(by eexists)).
    - by destruct (proj2 Hs ltac:(by eexists)).
    - by exists 0. }
  intros tps. induction tps as [|tp tps IH]; intros out; [by exists 0|]. cbn [update_transactions].
  intros [(tp' & E & E2)|[(e & E & ->)|[E ->]]]%run_bind_some; destruct (H1 _ _ E) as [n1 H2].
  - apply run_bind_some in E2 as [(tps' & E2 & E3)|[(e & E2 & ->)|[E2 ->]]]; destruct (IH _ E2) as [n2 H3]; exists (n1 `max` n2);
      rewrite (update_transaction_grows X ho T' n1 (n1 `max` n2) _ _ ltac:(lia) H2); cbn [run_bind];
      rewrite (update_transactions_grows X ho T' n2 (n1 `max` n2) _ _ ltac:(lia) H3); done.
  - exists n1. by rewrite H2.
  - exists n1. by rewrite H2.
Qed.
(** Tables with the same outcome of "start". *)
Lemma same_start T T' : (is_Some (T !! s2l "start") ↔ is_Some (T' !! s2l "start")) →
  (∀ X c out, chain_ends X T (s2l "start") c out ↔ chain_ends X T' (s2l "start") c out) → same_effect T T'.
Proof.
  intros Hs H X ho tps out Hho.
  assert (∀ T1 T2 n c out, (∀ c out, chain_ends X T1 (s2l "start") c out → chain_ends X T2 (s2l "start") c out) →
    apply_chain X ho T1 n START_CHAIN c = Some out → ∃ n', apply_chain X ho T2 n' START_CHAIN c = Some out) as Hf.
  { intros T1 T2 n c o H12 E. apply (chain_sound X ho T1 n _ _ _ Hho) in E. apply H12 in E. by apply (c54_meaning X ho) in E. }
  split; intros [n E].
  - revert E. apply journal_follow; [done|]. intros c o. apply Hf. intros c' o'. apply H.
  - revert E. apply journal_follow; [by symmetry|]. intros c o. apply Hf. intros c' o'. apply H.
Qed.

(** ** Other names *)
Lemma within_used T n rs r m : used T n → T !! n = Some rs → r ∈ rs → within (AJump m) (r_action r) → used T m.
Proof. intros Hn HT Hr Hm. eapply rtc_r; [exact Hn|]. by exists rs, r. Qed.
Lemma act_renamed_eq X j j' f a c : (∀ m c, within (AJump m) a → j m c = j' (f m) c) → apply_action X j a c = apply_action X j' (action_renamed f a) c.
Proof.
  revert c. induction a as [l IH|a Ha] using action_nest; intros c Hj.
  - cbn [action_renamed]. rewrite !apply_action_all. revert c Hj. induction IH as [|a l Ha _ IH]; intros c Hj; cbn [map apply_list]; [done|].
    rewrite (Ha c). 2:{ intros m c' Hm. apply Hj. apply (within_all _ a); [left|done]. }
    destruct (apply_action X j' (action_renamed f a) c) as [[c'|e|]|]; cbn [run_bind]; try done. apply IH.
    intros m c2 Hm. apply Hj. inversion Hm as [|b l' Hb Hw]; subst. apply (within_all _ b); [by right|done].
  - destruct a; try done; try (by destruct (Ha l)). cbn. apply Hj. constructor.
Qed.
Lemma rules_renamed_eq X ho j j' f rs c : (∀ r m c, r ∈ rs → within (AJump m) (r_action r) → j m c = j' (f m) c) →
  apply_rules X ho j rs c = apply_rules X ho j' (map (rule_renamed f) rs) c.
Proof.
  revert c. induction rs as [|r rs IH]; intros c Hj; [done|]. cbn [map apply_rules]. unfold apply_rule, rule_renamed. cbn [r_predicate r_action r_result].
  rewrite <- (act_renamed_eq X j j' f). 2:{ intros m c' Hm. apply (Hj r); [left|done]. }
  assert (∀ c, apply_rules X ho j rs c = apply_rules X ho j' (map (rule_renamed f) rs) c) as E.
  { intros c'. apply IH. intros r' m c2 Hr. apply Hj. by right. }
  destruct (is_match X ho (r_predicate r) c); cbn [run_bind]; [|apply E].
  destruct (apply_action X j (r_action r) c) as [[c'|e|]|]; cbn [run_bind]; try done. destruct (r_result r); [apply E|done].
Qed.
Lemma chain_renamed_eq X ho f T T' n name c : renamed f T T' → used T name → apply_chain X ho T n name c = apply_chain X ho T' n (f name) c.
Proof.
  intros [_ H]. revert name c. induction n as [|n IH]; intros name c Hu; [done|]. cbn [apply_chain]. rewrite (H name Hu).
  destruct (T !! name) as [rs|] eqn:E; [|done]. cbn. apply rules_renamed_eq. intros r m c' Hr Hm. apply IH. by eapply within_used.
Qed.
Lemma journal_renamed f T T' X ho n tps : renamed f T T' → update_transactions X ho T n tps = update_transactions X ho T' n tps.
Proof.
  intros H. assert (∀ c, apply_chain X ho T n START_CHAIN c = apply_chain X ho T' n START_CHAIN c) as E.
  { intros c. rewrite (chain_renamed_eq X ho f T T' n START_CHAIN c H); [|constructor]. destruct H as [H0 _]. change START_CHAIN with (s2l "start"). by rewrite H0. }
  assert (is_Some (T !! START_CHAIN) ↔ is_Some (T' !! START_CHAIN)) as Hs.
  { destruct H as [H0 H]. specialize (H (s2l "start") (rtc_refl _ _)). rewrite H0 in H. change START_CHAIN with (s2l "start"). rewrite H. by rewrite fmap_is_Some. }
  assert (∀ ps t, update_posts (apply_chain X ho T n START_CHAIN) t ps = update_posts (apply_chain X ho T' n START_CHAIN) t ps) as Ep.
  { intros ps. induction ps as [|p ps IH]; intros t; [done|]. cbn [update_posts]. rewrite E. destruct (apply_chain X ho T' n START_CHAIN (RCtx t p)) as [[c|e|]|]; cbn [run_bind]; try done. by rewrite IH. }
  induction tps as [|tp tps IH]; [done|]. cbn [update_transactions]. rewrite IH. f_equal. unfold update_transaction.
  destruct (T !! START_CHAIN), (T' !! START_CHAIN); [by rewrite Ep|by destruct (proj1 Hs ltac:(by eexists))|by destruct (proj2 Hs ltac:(by eexists))|done].
Qed.
Lemma c120_renamed f T T' : renamed f T T' → same_effect T T'.
Proof. intros H X ho tps out _. split; intros [n E]; exists n; [by rewrite <- (journal_renamed f T T')|by rewrite (journal_renamed f T T')]. Qed.

Scheme acts_mind := Minimality for acts Sort Prop
  with rules_mind := Minimality for rules_end Sort Prop
  with chain_mind := Minimality for chain_ends Sort Prop.
Combined Scheme ends_mind from acts_mind, rules_mind, chain_mind.

Lemma ends_no_panic X T :
  (∀ a c out, acts X T a c out → out ≠ Panic) ∧ (∀ rs c out, rules_end X T rs c out → out ≠ Panic) ∧
  (∀ n c out, chain_ends X T n c out → out ≠ Panic).
Proof. by apply ends_mind. Qed.
Lemma rules_no_panic X T rs c : ¬ rules_end X T rs c Panic.
Proof. intros H. by destruct (ends_no_panic X T) as (_ & H' & _); apply H' in H. Qed.

(** ** Rules in other places *)
Lemma alike_refl rs : alike rs rs. Proof. done. Qed.
Lemma alike_sym rs rs' : alike rs rs' → alike rs' rs. Proof. intros H X T c out. by rewrite (H X T c out). Qed.
Lemma alike_trans a b c : alike a b → alike b c → alike a c. Proof. intros H H' X T x out. by rewrite (H X T x out). Qed.
Lemma rules_under X T r rs rs' c out : (∀ c, rules_end X T rs c out → rules_end X T rs' c out) → rules_end X T (r :: rs) c out → rules_end X T (r :: rs') c out.
Proof.
  intros H E. inversion E; subst.
  - apply end_skip; auto.
  - by apply end_err.
  - by apply end_return.
  - eapply end_continue; eauto.
Qed.
Lemma alike_app b rs rs' : alike rs rs' → alike (b ++ rs) (b ++ rs').
Proof. intros H. induction b as [|r b IH]; [done|]. intros X T c out. split; apply rules_under; intros c'; apply IH. Qed.

Lemma replaced_half X T name rs rs' : T !! name = Some rs →
  (∀ c out, rules_end X (<[name := rs']> T) rs c out → rules_end X (<[name := rs']> T) rs' c out) →
  (∀ a c out, acts X T a c out → acts X (<[name := rs']> T) a c out) ∧
  (∀ l c out, rules_end X T l c out → rules_end X (<[name := rs']> T) l c out) ∧
  (∀ n c out, chain_ends X T n c out → chain_ends X (<[name := rs']> T) n c out).
Proof.
  intros HT Ha. apply ends_mind.
  all: try (intros; by econstructor).
  - intros n l c out Hn _ IH. destruct (decide (n = name)) as [->|Hne].
    + apply (chain_found X _ name rs'); [by rewrite lookup_insert|]. apply Ha. rewrite HT in Hn. by injection Hn as ->.
    + apply (chain_found X _ n l); [by rewrite lookup_insert_ne|done].
  - intros n c Hn. apply chain_missing. rewrite lookup_insert_ne; [done|]. intros ->. by rewrite HT in Hn.
Qed.
(** It is enough that the rules are alike in the two tables. *)
Lemma replaced_at T name rs rs' : T !! name = Some rs →
  (∀ X c out, rules_end X (<[name := rs']> T) rs c out → rules_end X (<[name := rs']> T) rs' c out) →
  (∀ X c out, rules_end X T rs' c out → rules_end X T rs c out) → same_effect T (<[name := rs']> T).
Proof.
  intros HT H H'. apply same_start.
  - rewrite lookup_insert_is_Some. split; [intros Hs|].
    + destruct (decide (name = s2l "start")); [by left|by right].
    + intros [<-|[_ ?]]; [by eexists|done].
  - assert (T = <[name := rs]> (<[name := rs']> T)) as E by (rewrite insert_insert; symmetry; by apply insert_id).
    intros X c out. split; intros Hc.
    + by apply (replaced_half X T name rs rs' HT (H X)).
    + rewrite E. apply (replaced_half X (<[name := rs']> T) name rs' rs); [by rewrite lookup_insert|rewrite <- E; apply H'|done].
Qed.
Lemma c120_replaced T name rs rs' : T !! name = Some rs → alike rs rs' → same_effect T (<[name := rs']> T).
Proof. intros HT H. apply (replaced_at T name rs rs' HT); intros X c out; apply H. Qed.

(** ** Rules moved to another chain *)
Lemma action_same a : action_renamed id a = a.
Proof. induction a as [l IH|a Ha] using action_nest; [|by destruct a; try done; destruct (Ha l)]. cbn. f_equal. induction IH as [|a l H _ IH]; [done|]. cbn. by rewrite H, IH. Qed.
Lemma rules_same rs : map (rule_renamed id) rs = rs.
Proof. induction rs as [|[p a r] rs IH]; [done|]. cbn. rewrite IH. unfold rule_renamed. cbn. by rewrite action_same. Qed.
Lemma unused_added T new rs : new ≠ s2l "start" → (∀ n, ¬ jumps T n new) → same_effect T (<[new := rs]> T).
Proof.
  intros Hs Hj. apply (c120_renamed id). split; [done|]. intros n Hn. unfold id at 1. rewrite lookup_insert_ne.
  - destruct (T !! n); [|done]. cbn. by rewrite rules_same.
  - intros ->. apply rtc_inv_r in Hn as [?|(m & _ & H)]; [done|]. by apply (Hj m).
Qed.
Lemma jump_end X T new mid after c out : T !! new = Some mid →
  rules_end X T (Rule PTrue (AJump new) RContinue :: after) c out ↔
  (∃ c1, rules_end X T mid c (Ok c1) ∧ rules_end X T after c1 out) ∨ ∃ e, out = Err e ∧ rules_end X T mid c (Err e).
Proof.
  intros HT. assert (∀ c o, acts X T (AJump new) c o ↔ rules_end X T mid c o) as Hj.
  { intros c' o. split.
    - intros H. inversion H as [? ? ? He| |? ? ? Hc| | |]; subst; [done|]. inversion Hc; subst; [|congruence].
      by match goal with H1 : T !! new = Some _ |- _ => rewrite HT in H1; injection H1 as <- end.
    - intros H. apply acts_jump. by apply (chain_found X T new mid). }
  split.
  - intros H. inversion H; subst; cbn in *.
    + match goal with H : fails_for _ _ _ |- _ => inversion H end.
    + right. eexists. split; [done|]. by apply Hj.
    + done.
    + left. eexists. split; [by apply Hj|done].
  - intros [(c1 & H1 & H2)|(e & -> & H1)]; apply Hj in H1.
    + eapply end_continue; [constructor|exact H1|done|done].
    + apply end_err; [constructor|done].
Qed.
Lemma rules_app_end X T mid after c out : Forall (λ r, r_result r = RContinue) mid ∨ after = [] →
  rules_end X T (mid ++ after) c out ↔
  (∃ c1, rules_end X T mid c (Ok c1) ∧ rules_end X T after c1 out) ∨ ∃ e, out = Err e ∧ rules_end X T mid c (Err e).
Proof.
  intros [HF| ->].
  - revert c. induction HF as [|r mid Hr HF IH]; intros c; cbn [app].
    + split.
      * intros H. left. exists c. split; [constructor|done].
      * intros [(c1 & H1 & H2)|(e & _ & H1)]; inversion H1; by subst.
    + split.
      * intros H. inversion H as [|? ? ? ? Hf Hr0|? ? ? e Hh Ha|? ? ? ? Hh Ha Hret|? ? ? c1 ? Hh Ha Hc Hr0]; subst.
        -- apply IH in Hr0 as [(c1 & H1 & H2)|(e & -> & H1)]; [left; exists c1; split; [by apply end_skip|done]|right; exists e; split; [done|by apply end_skip]].
        -- right. exists e. split; [done|by apply end_err].
        -- congruence.
        -- apply IH in Hr0 as [(c2 & H1 & H2)|(e & -> & H1)]; [left; exists c2; split; [by eapply end_continue|done]|right; exists e; split; [done|by eapply end_continue]].
      * intros [(c1 & H1 & H2)|(e & -> & H1)]; inversion H1 as [|? ? ? ? Hf Hr0|? ? ? e' Hh Ha|? ? ? ? Hh Ha Hret|? ? ? c2 ? Hh Ha Hc Hr0]; subst; try congruence.
        -- apply end_skip; [done|]. apply IH. left. by exists c1.
        -- eapply end_continue; [done|done|done|]. apply IH. left. by exists c1.
        -- apply end_skip; [done|]. apply IH. right. by exists e.
        -- by apply end_err.
        -- eapply end_continue; [done|done|done|]. apply IH. right. by exists e.
  - rewrite app_nil_r. split.
    + destruct out as [c1|e|]; intros H.
      * left. exists c1. split; [done|constructor].
      * right. by exists e.
      * exfalso. by apply (rules_no_panic X T mid c) in H.
    + intros [(c1 & H1 & H2)|(e & -> & H1)]; [|done]. inversion H2; by subst.
Qed.
Lemma same_effect_trans T1 T2 T3 : same_effect T1 T2 → same_effect T2 T3 → same_effect T1 T3.
Proof. intros H H' X ho tps out Hho. by rewrite (H X ho tps out Hho), (H' X ho tps out Hho). Qed.
Lemma same_effect_sym T1 T2 : same_effect T1 T2 → same_effect T2 T1.
Proof. intros H X ho tps out Hho. by rewrite (H X ho tps out Hho). Qed.
Lemma under_app X T b rs rs' : (∀ c out, rules_end X T rs c out → rules_end X T rs' c out) → ∀ c out, rules_end X T (b ++ rs) c out → rules_end X T (b ++ rs') c out.
Proof. intros H. induction b as [|r b IH]; [done|]. intros c out. apply rules_under. intros c'. apply IH. Qed.
Lemma c120_moved T T' name new : moved T T' name new → same_effect T T'.
Proof.
  intros (before & mid & after & HT & Hm & Hs & Hnew & Hj & ->).
  assert (new ≠ name) as Hne by (intros ->; by rewrite HT in Hnew).
  apply (same_effect_trans _ (<[new := mid]> T)); [by apply unused_added|].
  rewrite insert_commute by done.
  apply (replaced_at _ name (before ++ mid ++ after)); [by rewrite lookup_insert_ne| |]; intros X; apply under_app; intros c out H.
  - apply (jump_end _ _ new mid); [by rewrite lookup_insert_ne, lookup_insert by done|]. by apply rules_app_end.
  - apply rules_app_end; [done|]. apply (jump_end _ _ new mid) in H; [done|by rewrite lookup_insert].
Qed.

(** ** Laws of rules *)
(** What a list of rules does, by its first. *)
Lemma rules_first X T r rs c out : rules_end X T (r :: rs) c out ↔
  (fails_for X c (r_predicate r) ∧ rules_end X T rs c out) ∨
  (holds_for X c (r_predicate r) ∧
   ((∃ e, out = Err e ∧ acts X T (r_action r) c (Err e)) ∨
    ∃ c1, acts X T (r_action r) c (Ok c1) ∧
      ((r_result r = RReturn ∧ out = Ok c1) ∨ (r_result r = RContinue ∧ rules_end X T rs c1 out)))).
Proof.
  split.
  - intros H. inversion H; subst; eauto 10.
  - intros [[H1 H2]|[H1 [(e & -> & H2)|(c1 & H2 & [[H3 ->]|[H3 H4]])]]].
    + by apply end_skip.
    + by apply end_err.
    + by apply end_return.
    + by eapply end_continue.
Qed.
Lemma holds_or X c p : holds_for X c p ∨ fails_for X c p.
Proof. rewrite <- (is_match_holds X default_order c p default_order_ok), <- (is_match_fails X default_order c p default_order_ok). destruct (is_match X default_order p c); auto. Qed.

Lemma alike_never p a res rs : (∀ X c, ¬ holds_for X c p) → alike (Rule p a res :: rs) rs.
Proof. intros H X T c out. rewrite rules_first. cbn [r_predicate]. split; [intros [[_ ?]|[? _]]; [done|by destruct (H X c)]|]. left. split; [by apply holds_not|done]. Qed.
Lemma alike_noop p rs : alike (Rule p ANoop RContinue :: rs) rs.
Proof.
  assert (∀ X T c out, acts X T ANoop c out ↔ out = Ok c) as Hn.
  { intros X T c out. split; [|intros ->; apply acts_edit; by apply edits_spec]. intros H. inversion H as [? ? ? He| | | | |]; subst; try done. apply edits_spec in He. by injection He as ->. }
  intros X T c out. rewrite rules_first. cbn [r_predicate r_action r_result]. setoid_rewrite Hn. split.
  - intros [[_ ?]|[_ [(e & _ & ?)|(c1 & [= <-] & [[? _]|[_ ?]])]]]; done.
  - intros H. destruct (holds_or X c p); [right|by left]. split; [done|]. right. exists c. eauto.
Qed.
Lemma alike_last a rs : alike (Rule PTrue a RReturn :: rs) [Rule PTrue a RReturn].
Proof.
  intros X T c out. rewrite !rules_first. cbn [r_predicate r_action r_result].
  assert (¬ fails_for X c PTrue) by (intros H; inversion H). split.
  - intros [[? _]|[? [?|(c1 & ? & [?|[? _]])]]]; [done|right; eauto|right; eauto 10|done].
  - intros [[? _]|[? [?|(c1 & ? & [?|[? _]])]]]; [done|right; eauto|right; eauto 10|done].
Qed.
Lemma alike_predicate p p' a res rs : (∀ X c, holds_for X c p ↔ holds_for X c p') → alike (Rule p a res :: rs) (Rule p' a res :: rs).
Proof. intros H X T c out. rewrite !rules_first. cbn [r_predicate r_action r_result]. by rewrite !holds_not, H. Qed.
Lemma true_first X T a res rs c out : rules_end X T (Rule PTrue a res :: rs) c out ↔
  (∃ e, out = Err e ∧ acts X T a c (Err e)) ∨ ∃ c1, acts X T a c (Ok c1) ∧ ((res = RReturn ∧ out = Ok c1) ∨ (res = RContinue ∧ rules_end X T rs c1 out)).
Proof.
  rewrite rules_first. cbn [r_predicate r_action r_result]. split.
  - intros [[H _]|[_ H]]; [inversion H|done].
  - intros H. right. split; [constructor|done].
Qed.
Lemma acts_cons X T a l c out : acts X T (AAll (a :: l)) c out ↔
  (∃ e, out = Err e ∧ acts X T a c (Err e)) ∨ ∃ c1, acts X T a c (Ok c1) ∧ acts X T (AAll l) c1 out.
Proof.
  split.
  - intros H. inversion H as [? ? ? He| | | | |]; subst; eauto. by apply edits_spec in He.
  - intros [(e & -> & H)|(c1 & H & H')]; [by apply acts_all_err|by eapply acts_all_ok].
Qed.
Lemma acts_nil X T c out : acts X T (AAll []) c out ↔ out = Ok c.
Proof. split; [|intros ->; apply acts_all_none]. intros H. inversion H as [? ? ? He| | |?| |]; subst; [by apply edits_spec in He|done]. Qed.
Lemma alike_all l rs : alike (Rule PTrue (AAll l) RContinue :: rs) (map (λ a, Rule PTrue a RContinue) l ++ rs).
Proof.
  intros X T. induction l as [|a l IH]; intros c out; cbn [map app].
  - rewrite true_first. setoid_rewrite acts_nil. split; [|by eauto 10]. intros [(? & _ & [=])|(c1 & [= ->] & [[[=] _]|[_ ?]])]. done.
  - rewrite (true_first X T a). setoid_rewrite <- IH. rewrite true_first. setoid_rewrite acts_cons. setoid_rewrite true_first. split.
    + intros [(e & -> & [(e' & [= ->] & ?)|(c1 & ? & ?)])|(c1 & [(e' & [=] & _)|(c2 & ? & ?)] & [[[=] _]|[_ ?]])]; eauto 12.
    + intros [(e & -> & ?)|(c1 & H1 & [[[=] _]|[_ [(e & -> & ?)|(c2 & ? & [[[=] _]|[_ ?]])]]])]; eauto 12.
Qed.
Lemma return_first X T p a rs c out : rules_end X T (Rule p a RReturn :: rs) c out ↔
  (¬ holds_for X c p ∧ rules_end X T rs c out) ∨
  (holds_for X c p ∧ ((∃ e, out = Err e ∧ acts X T a c (Err e)) ∨ ∃ c1, acts X T a c (Ok c1) ∧ out = Ok c1)).
Proof.
  rewrite rules_first, holds_not. cbn [r_predicate r_action r_result]. split.
  - intros [?|[? [?|(c1 & ? & [[_ ?]|[[=] _]])]]]; eauto 10.
  - intros [?|[? [?|(c1 & ? & ?)]]]; eauto 10.
Qed.
Lemma alike_any p q a rs : alike (Rule p a RReturn :: Rule q a RReturn :: rs) (Rule (PAny [p; q]) a RReturn :: rs).
Proof.
  intros X T c out. rewrite !return_first.
  assert (holds_for X c (PAny [p; q]) ↔ holds_for X c p ∨ holds_for X c q) as Hh.
  { split.
    - intros H. inversion H as [| |? p' Hp Hh| | | | | | |]; subst. apply elem_of_cons in Hp as [->|Hp]; [by left|]. apply elem_of_list_singleton in Hp as ->. by right.
    - intros [H|H]; [apply (hf_any X c _ p)|apply (hf_any X c _ q)]; try done; by_compute || set_solver. }
  rewrite Hh. pose proof (holds_or X c p) as Hp. rewrite holds_not in Hp. tauto.
Qed.
Lemma alike_swap p q a b rs : (∀ X c, holds_for X c p → ¬ holds_for X c q) →
  alike (Rule p a RReturn :: Rule q b RReturn :: rs) (Rule q b RReturn :: Rule p a RReturn :: rs).
Proof. intros H X T c out. rewrite !return_first. specialize (H X c). pose proof (holds_or X c p) as Hp. rewrite holds_not in Hp. tauto. Qed.

(** ** The command *)
Definition after_load (E : env) (X : text_env) (ho : hash_order) (n : nat) (T : table) (input output : filespec) : io (option unit) :=
  do! l := read_ledger E input in
  do! tps := io_of (from_ledger l) in
  io_run (update_transactions X ho T n tps) (λ tps,
  do! _ := write_ledger E output (into_ledger ho tps) in
  io_ret (Some tt)).
Lemma rules_cmd_loaded E X F ho n p T input output w : load_from_path F ho n p = Some (Ok T) →
  rules_cmd E X F ho n p input output w = after_load E X ho n T input output w.
Proof.
  intros H. unfold rules_cmd. rewrite H. cbn [io_run]. unfold io_bind at 1, io_of at 1. change (steps w []) with w.
  fold (after_load E X ho n T input output). by destruct (after_load E X ho n T input output w).
Qed.
Lemma after_same E X ho n T T' input output w es r : hash_order_ok ho → same_effect T T' → r ≠ Ok None →
  after_load E X ho n T input output w = (es, r) → ∃ n', ∀ m, n' ≤ m → after_load E X ho m T' input output w = (es, r).
Proof.
  intros Hho Hse Hr. unfold after_load. unfold io_bind at 1. destruct (read_ledger E input w) as [es1 [l|e|]] eqn:Er.
  2-3: intros H; exists 0; intros m _; unfold io_bind at 1; by rewrite Er.
  unfold io_bind at 1, io_of at 1. destruct (from_ledger l) as [tps|e|] eqn:Ef.
  2-3: intros H; exists 0; intros m _; unfold io_bind at 1; rewrite Er; unfold io_bind at 1, io_of at 1; by rewrite Ef.
  destruct (update_transactions X ho T n tps) as [o|] eqn:Eu.
  2:{ cbn [io_run]. unfold io_ret. intros [= _ <-]. done. }
  destruct (proj1 (Hse X ho tps o Hho)) as [n' E']; [by exists n|].
  intros H. exists n'. intros m Hm. unfold io_bind at 1. rewrite Er. unfold io_bind at 1, io_of at 1. rewrite Ef.
  by rewrite (update_transactions_grows X ho T' n' m tps o Hm E').
Qed.
Lemma c120_command E X ho F paths p T F' paths' p' T' input output w es r :
  hash_order_ok ho → one_file F → all_paths F paths → rules_loaded F p T →
  one_file F' → all_paths F' paths' → rules_loaded F' p' T' → same_effect T T' → r ≠ Ok None →
  (∃ n0, ∀ n, n0 ≤ n → rules_cmd E X F ho n p input output w = (es, r)) →
  ∃ n0, ∀ n, n0 ≤ n → rules_cmd E X F' ho n p' input output w = (es, r).
Proof.
  intros Hho H1 H2 H3 H1' H2' H3' Hse Hr [n0 Hn].
  set (n := S (length paths) `max` n0). specialize (Hn n ltac:(lia)).
  rewrite (rules_cmd_loaded E X F ho n p T) in Hn. 2:{ apply (load_from_path_complete F ho paths n p T Hho H1 H2 ltac:(lia) H3). }
  destruct (after_same _ _ _ _ _ _ _ _ _ _ _ Hho Hse Hr Hn) as [n' Hn']. exists (S (length paths') `max` n'). intros m Hm.
  rewrite (rules_cmd_loaded E X F' ho m p' T'); [apply Hn'; lia|]. apply (load_from_path_complete F' ho paths' m p' T' Hho H1' H2' ltac:(lia) H3').
Qed.

(** Laws of applying rules: journals, what is kept, missing chains, termination. *)
From stdpp Require Import gmap list relations.
From Verif Require Import Base Types CommentModel MergeModel CmdModel SpecBase BaseProofs MergeProofs CmdClaims RulesModel RulesClaims RulesProofs.
Local Open Scope nat_scope.

(** * Journals *)

Lemma update_transactions_ok X ho T n tps out : update_transactions X ho T n tps = Some (Ok out) ↔
  Forall2 (λ tp tp', update_transaction X ho T n tp = Some (Ok tp')) tps out.
Proof.
  revert out. induction tps as [|tp tps IH]; intros out; cbn [update_transactions].
  - split; [intros [= <-]; constructor|]. by intros ->%Forall2_nil_inv_l.
  - split.
    + intros [(tp' & E & H)|[(e & E & [=])|[E [=]]]]%run_bind_some.
      apply run_bind_some in H as [(tps' & E' & H)|[(e & _ & [=])|[_ [=]]]]. simplify_eq.
      constructor; [done|]. by apply IH.
    + intros (tp' & out' & H1 & H2 & ->)%Forall2_cons_inv_l. rewrite H1. cbn [run_bind].
      apply IH in H2. by rewrite H2.
Qed.
Lemma update_transactions_stop X ho T n tps out : (∀ tps', out ≠ Some (Ok tps')) →
  update_transactions X ho T n tps = out ↔
  ∃ before tp after, tps = before ++ tp :: after ∧
    (∀ tp', tp' ∈ before → ∃ o, update_transaction X ho T n tp' = Some (Ok o)) ∧
    run_bind (update_transaction X ho T n tp) (λ _, Some (Ok [])) = out.
Proof.
  intros Hout. induction tps as [|tp tps IH]; cbn [update_transactions].
  - split; [intros <-; by destruct (Hout [])|]. intros ([] & ? & ? & [=] & _).
  - destruct (update_transaction X ho T n tp) as [[tp'|e|]|] eqn:E; cbn [run_bind].
    + transitivity (update_transactions X ho T n tps = out).
      { destruct (update_transactions X ho T n tps) as [[tps'|e|]|] eqn:E'; cbn [run_bind]; try done.
        split; intros <-; by destruct (Hout _ eq_refl). }
      rewrite IH. split.
      * intros (b & t & a & -> & Hb & H). exists (tp :: b), t, a. split_and!; [done| |done].
        intros t' [->|Ht']%elem_of_cons; eauto.
      * intros ([|t0 b] & t & a & H0 & Hb & H); injection H0 as -> ->.
        -- rewrite E in H. cbn in H. by destruct (Hout [] (eq_sym H)).
        -- exists b, t, a. split_and!; [done| |done]. intros t' Ht'. apply Hb. by right.
    + split.
      * intros <-. exists [], tp, tps. rewrite E. split_and!; [done| |done]. intros ? []%elem_of_nil.
      * intros ([|t0 b] & t & a & H0 & Hb & H); injection H0 as -> ->; [by rewrite E in H|].
        destruct (Hb t0) as [o Ho]; [by left|]. congruence.
    + split.
      * intros <-. exists [], tp, tps. rewrite E. split_and!; [done| |done]. intros ? []%elem_of_nil.
      * intros ([|t0 b] & t & a & H0 & Hb & H); injection H0 as -> ->; [by rewrite E in H|].
        destruct (Hb t0) as [o Ho]; [by left|]. congruence.
    + split.
      * intros <-. exists [], tp, tps. rewrite E. split_and!; [done| |done]. intros ? []%elem_of_nil.
      * intros ([|t0 b] & t & a & H0 & Hb & H); injection H0 as -> ->; [by rewrite E in H|].
        destruct (Hb t0) as [o Ho]; [by left|]. congruence.
Qed.

Lemma update_posts_ok X ho T n t ps t' ps' : hash_order_ok ho →
  update_posts (apply_chain X ho T n START_CHAIN) t ps = Some (Ok (t', ps')) → posts_end X T t ps t' ps'.
Proof.
  intros Hho. revert t ps'. induction ps as [|p ps IH]; intros t ps'; cbn [update_posts].
  - intros [= <- <-]. constructor.
  - intros [([t1 p1] & E & H)|[(e & E & [=])|[E [=]]]]%run_bind_some.
    apply run_bind_some in H as [([t2 ps2] & E' & H)|[(e & _ & [=])|[_ [=]]]]. simplify_eq/=.
    apply (posts_one _ _ _ _ _ t1 p1); [by apply (chain_sound X ho T n)|]. by apply IH.
Qed.
Lemma update_posts_grows X ho T n n' t ps out : n ≤ n' →
  update_posts (apply_chain X ho T n START_CHAIN) t ps = Some out →
  update_posts (apply_chain X ho T n' START_CHAIN) t ps = Some out.
Proof.
  intros Hn. revert t out. induction ps as [|p ps IH]; intros t out; cbn [update_posts]; [done|].
  apply run_bind_grows; [intros o; by apply apply_chain_grows|]. intros c o.
  apply run_bind_grows; [apply IH|]. done.
Qed.
Lemma update_posts_complete X ho T t ps t' ps' : hash_order_ok ho → posts_end X T t ps t' ps' →
  ∃ n, update_posts (apply_chain X ho T n START_CHAIN) t ps = Some (Ok (t', ps')).
Proof.
  intros Hho. induction 1 as [t|t p ps t1 p1 t2 ps2 H1 H2 [n2 IH]]; [by exists 0|].
  apply (c54_meaning X ho) in H1 as [n1 H1]; [|done]. exists (n1 `max` n2). cbn [update_posts].
  change (s2l "start") with START_CHAIN in H1.
  rewrite (c54_fuel X ho T n1 (n1 `max` n2) START_CHAIN _ _ ltac:(lia) H1). cbn [run_bind rc_trn rc_post].
  rewrite (update_posts_grows X ho T n2 (n1 `max` n2) _ _ _ ltac:(lia) IH). done.
Qed.
Lemma update_transaction_ok X ho T n tp tp' : hash_order_ok ho → update_transaction X ho T n tp = Some (Ok tp') →
  is_Some (T !! s2l "start") ∧ posts_end X T (tp_trn tp) (tp_posts tp) (tp_trn tp') (tp_posts tp').
Proof.
  intros Hho. unfold update_transaction. change (s2l "start") with START_CHAIN.
  destruct (T !! START_CHAIN) as [rs|] eqn:E; [|done].
  intros [([t ps] & E' & H)|[(e & _ & [=])|[_ [=]]]]%run_bind_some. simplify_eq/=. split; [done|].
  by apply (update_posts_ok X ho T n).
Qed.
Lemma update_transaction_grows X ho T n n' tp out : n ≤ n' →
  update_transaction X ho T n tp = Some out → update_transaction X ho T n' tp = Some out.
Proof.
  intros Hn. unfold update_transaction. destruct (T !! START_CHAIN); [|done].
  apply run_bind_grows; [|done]. intros o. by apply update_posts_grows.
Qed.
Lemma update_transactions_grows X ho T n n' tps out : n ≤ n' →
  update_transactions X ho T n tps = Some out → update_transactions X ho T n' tps = Some out.
Proof.
  intros Hn. revert out. induction tps as [|tp tps IH]; intros out; cbn [update_transactions]; [done|].
  apply run_bind_grows; [intros o; by apply update_transaction_grows|]. intros tp' o.
  apply run_bind_grows; [apply IH|]. done.
Qed.
Lemma c54_journal X ho T tps out : hash_order_ok ho → is_Some (T !! s2l "start") →
  (∃ n, update_transactions X ho T n tps = Some (Ok out)) ↔
  Forall2 (λ tp tp', posts_end X T (tp_trn tp) (tp_posts tp) (tp_trn tp') (tp_posts tp')) tps out.
Proof.
  intros Hho Hs. split.
  - intros [n H]. apply update_transactions_ok in H. eapply Forall2_impl; [exact H|]. intros tp tp' Htp. cbn in Htp.
    by apply (update_transaction_ok X ho T n tp tp' Hho) in Htp as [_ ?].
  - induction 1 as [|tp tp' tps out H _ [n2 IH]]; [by exists 0|].
    apply (update_posts_complete X ho) in H as [n1 H]; [|done]. exists (n1 `max` n2). cbn [update_transactions].
    rewrite (update_transactions_grows X ho T n2 (n1 `max` n2) _ _ ltac:(lia) IH).
    rewrite (update_transaction_grows X ho T n1 (n1 `max` n2) tp (Ok tp')); [done|lia|].
    unfold update_transaction. change (s2l "start") with START_CHAIN in Hs. destruct Hs as [rs ->]. rewrite H. cbn [run_bind].
    by destruct tp'.
Qed.

(** * Invariants of successful runs *)

Section invariant.
  Variables (X : text_env) (T : table) (R : rctx → rctx → Prop).
  Hypothesis R_refl : ∀ c, R c c.
  Hypothesis R_trans : ∀ a b c, R a b → R b c → R a c.
  Hypothesis R_edit : ∀ a c c', has_action T a → edits X a c c' → R c c'.
  Definition known (a : action) : Prop := ∀ b, within b a → (∀ l, b ≠ AAll l) → has_action T b.
  Lemma known_cons a l : known (AAll (a :: l)) → known a ∧ known (AAll l).
  Proof.
    intros H. split; intros b Hb Hn; apply H; try done.
    - apply (within_all _ a); [by left|done].
    - inversion Hb; subst; [by destruct (Hn l)|]. eapply within_all; [by right|done].
  Qed.
  Lemma ends_invariant :
    (∀ a c out, acts X T a c out → known a → ∀ c', out = Ok c' → R c c') ∧
    (∀ rs c out, rules_end X T rs c out → (∀ r, r ∈ rs → known (r_action r)) → ∀ c', out = Ok c' → R c c') ∧
    (∀ name c out, chain_ends X T name c out → ∀ c', out = Ok c' → R c c').
  Proof.
    apply ends_mind; try (intros; discriminate).
    - intros a c c1 H Ha c' [= <-]. apply (R_edit a); [|done]. apply Ha; [constructor|]. by intros l ->.
    - intros name c out _ IH _ c' ->. by apply IH.
    - intros c _ c' [= <-]. apply R_refl.
    - intros a l c c1 out _ IH1 _ IH2 [Ha Hl]%known_cons c' ->. apply (R_trans _ c1); [by apply IH1|by apply IH2].
    - intros c _ c' [= <-]. apply R_refl.
    - intros r rs c out _ _ IH Hk c' ->. apply IH; [|done]. intros r' Hr'. apply Hk. by right.
    - intros r rs c c1 _ _ IH _ Hk c' [= <-]. apply IH; [|done]. apply Hk. by left.
    - intros r rs c c1 out _ _ IH1 _ _ IH2 Hk c' ->. apply (R_trans _ c1).
      + apply IH1; [|done]. apply Hk. by left.
      + apply IH2; [|done]. intros r' Hr'. apply Hk. by right.
    - intros name rs c out E _ IH c' ->. apply IH; [|done]. intros r Hr b Hb _. by exists name, rs, r.
  Qed.
  Lemma posts_invariant (RT : transaction_internal → transaction_internal → Prop) (RP : posting_internal → posting_internal → Prop) :
    (∀ c c', R c c' → RT (rc_trn c) (rc_trn c') ∧ RP (rc_post c) (rc_post c')) →
    (∀ t, RT t t) → (∀ a b c, RT a b → RT b c → RT a c) →
    ∀ t ps t' ps', posts_end X T t ps t' ps' → RT t t' ∧ Forall2 RP ps ps'.
  Proof.
    intros HR Hrefl Htrans t ps t' ps'. induction 1 as [t|t p ps t1 p1 t2 ps2 H1 H2 [IH1 IH2]]; [done|].
    destruct (HR _ _ (proj2 (proj2 ends_invariant) _ _ _ H1 _ eq_refl)) as [Ht Hp]. cbn in Ht, Hp.
    split; [by apply (Htrans _ t1)|by constructor].
  Qed.
End invariant.

Lemma journal_invariant X ho T n tps out (RT : transaction_internal → transaction_internal → Prop)
    (RP : posting_internal → posting_internal → Prop) :
  hash_order_ok ho →
  (∀ t, RT t t) → (∀ a b c, RT a b → RT b c → RT a c) → (∀ p, RP p p) → (∀ a b c, RP a b → RP b c → RP a c) →
  (∀ a c c', has_action T a → edits X a c c' → RT (rc_trn c) (rc_trn c') ∧ RP (rc_post c) (rc_post c')) →
  update_transactions X ho T n tps = Some (Ok out) →
  Forall2 (λ tp tp', RT (tp_trn tp) (tp_trn tp') ∧ Forall2 RP (tp_posts tp) (tp_posts tp')) tps out.
Proof.
  intros Hho T1 T2 P1 P2 HE H. apply update_transactions_ok in H. eapply Forall2_impl; [exact H|].
  intros tp tp' Htp. cbn in Htp. apply (update_transaction_ok X ho T n tp tp' Hho) in Htp as [_ Htp].
  apply (posts_invariant X T (λ c c', RT (rc_trn c) (rc_trn c') ∧ RP (rc_post c) (rc_post c'))); [by intros c| |done|done|done|done|done].
  intros a b c [??] [??]. split; [by apply (T2 _ (rc_trn b))|by apply (P2 _ (rc_post b))].
Qed.

(** * C53 *)

Lemma posting_kept_refl p : posting_kept p p.
Proof. by constructor. Qed.
Lemma posting_kept_trans a b c : posting_kept a b → posting_kept b c → posting_kept a c.
Proof. intros [] []. constructor; congruence. Qed.
Lemma trn_kept_refl p : trn_kept p p.
Proof. by constructor. Qed.
Lemma trn_kept_trans a b c : trn_kept a b → trn_kept b c → trn_kept a c.
Proof. intros [] []. constructor; congruence. Qed.
Lemma edits_kept X a c c' : edits X a c c' → trn_kept (rc_trn c) (rc_trn c') ∧ posting_kept (rc_post c) (rc_post c').
Proof.
  rewrite edits_spec. destruct c as [[tr tc] [pr pc]]. intros H. destruct a; simplify_eq/=; split; by constructor.
Qed.
Lemma c53_kept X ho T n tps out : hash_order_ok ho → update_transactions X ho T n tps = Some (Ok out) →
  Forall2 tp_kept tps out.
Proof.
  intros Hho. apply (journal_invariant X ho T n tps out trn_kept posting_kept Hho).
  - apply trn_kept_refl.
  - apply trn_kept_trans.
  - apply posting_kept_refl.
  - apply posting_kept_trans.
  - intros a c c' _. apply edits_kept.
Qed.

Lemma posting_changes_refl T p : posting_changes T p p.
Proof. split_and!; auto. Qed.
Lemma posting_changes_trans T a b c : posting_changes T a b → posting_changes T b c → posting_changes T a c.
Proof.
  intros (A1 & A2 & A3 & A4) (B1 & B2 & B3 & B4). split_and!.
  - destruct B1 as [-> | B1]; [done|by right].
  - intros t Ht. destruct (B2 t Ht); auto.
  - intros t Ht. destruct (A3 t Ht); auto.
  - intros k. destruct (B4 k) as [-> |[B|B]]; auto.
Qed.
Lemma trn_changes_refl T p : trn_changes T p p.
Proof. split_and!; auto. Qed.
Lemma trn_changes_trans T a b c : trn_changes T a b → trn_changes T b c → trn_changes T a c.
Proof.
  intros (A1 & A2 & A3 & A4) (B1 & B2 & B3 & B4). split_and!.
  - destruct B1 as [-> | B1]; [done|by right].
  - intros t Ht. destruct (B2 t Ht); auto.
  - intros t Ht. destruct (A3 t Ht); auto.
  - intros k. destruct (B4 k) as [-> |[B|B]]; auto.
Qed.
Lemma edits_changes X T a c c' : has_action T a → edits X a c c' →
  trn_changes T (rc_trn c) (rc_trn c') ∧ posting_changes T (rc_post c) (rc_post c').
Proof.
  rewrite edits_spec. destruct c as [[tr tc] [pr pc]]. intros Ha H.
  destruct a as [t|k v|t|k v|l|msg| |name|v|t|k|t|k|r s]; simplify_eq/=;
    (split; [first [apply trn_changes_refl|split_and!]|first [apply posting_changes_refl|split_and!]]); cbn; eauto;
    unfold has_tag, on_description; cbn.
  - intros x. rewrite elem_of_union, elem_of_singleton. intros [-> | ?]; auto.
  - intros x Hx. left. rewrite elem_of_union. auto.
  - intros x. destruct (decide (x = k)) as [->|Hx].
    + rewrite lookup_insert. eauto.
    + rewrite lookup_insert_ne by done. auto.
  - intros x. rewrite elem_of_union, elem_of_singleton. intros [-> | ?]; auto.
  - intros x Hx. left. rewrite elem_of_union. auto.
  - intros x. destruct (decide (x = k)) as [->|Hx].
    + rewrite lookup_insert. eauto.
    + rewrite lookup_insert_ne by done. auto.
  - intros x. rewrite elem_of_difference. intros [? _]. auto.
  - intros x Hx. destruct (decide (x = t)) as [->|Hn]; [auto|]. left. rewrite elem_of_difference, elem_of_singleton. auto.
  - intros x. destruct (decide (x = k)) as [->|Hx].
    + rewrite lookup_delete. eauto.
    + rewrite lookup_delete_ne by done. auto.
  - intros x. rewrite elem_of_difference. intros [? _]. auto.
  - intros x Hx. destruct (decide (x = t)) as [->|Hn]; [auto|]. left. rewrite elem_of_difference, elem_of_singleton. auto.
  - intros x. destruct (decide (x = k)) as [->|Hx].
    + rewrite lookup_delete. eauto.
    + rewrite lookup_delete_ne by done. auto.
Qed.
Lemma c53_changes X ho T n tps out : hash_order_ok ho → update_transactions X ho T n tps = Some (Ok out) →
  Forall2 (tp_changes T) tps out.
Proof.
  intros Hho. apply (journal_invariant X ho T n tps out (trn_changes T) (posting_changes T) Hho).
  - apply trn_changes_refl.
  - apply trn_changes_trans.
  - apply posting_changes_refl.
  - apply posting_changes_trans.
  - intros a c c'. apply edits_changes.
Qed.

(** * C55, C73: missing chains *)

Lemma validate_rules_spec T rs : validate_rules T rs = Ok tt ↔ ∀ r m, r ∈ rs → r_action r = AJump m → is_Some (T !! m).
Proof.
  induction rs as [|r rs IH]; cbn [validate_rules].
  - split; [intros _ r m []%elem_of_nil|done].
  - destruct (validate_action T (r_action r)) as [[]|e|] eqn:E; cbn.
    + rewrite IH. split.
      * intros H r' m [->|Hr']%elem_of_cons Hm; [|eauto]. rewrite Hm in E. cbn in E. by destruct (T !! m).
      * intros H r' m Hr'. apply H. by right.
    + split; [done|]. intros H. destruct (r_action r) as [| | | | | | |m| | | | | |] eqn:Ea; try done. cbn in E.
      destruct (H r m) as [x Hx]; [by left|done|]. by rewrite Hx in E.
    + split; [done|]. intros _. destruct (r_action r) as [| | | | | | |m| | | | | |]; try done. cbn in E. by destruct (T !! m).
Qed.
Lemma validate_chains_spec T cs : validate_chains T cs = Ok tt ↔
  ∀ n rs r m, (n, rs) ∈ cs → r ∈ rs → r_action r = AJump m → is_Some (T !! m).
Proof.
  induction cs as [|[n rs] cs IH]; cbn [validate_chains].
  - split; [intros _ n rs r m []%elem_of_nil|done].
  - cbn [snd]. destruct (validate_rules T rs) as [[]|e|] eqn:E; cbn.
    + rewrite IH. pose proof (proj1 (validate_rules_spec T rs) E) as Hrs. split.
      * intros H n' rs' r m [Hc|Hc]%elem_of_cons; [simplify_eq; eauto|eauto].
      * intros H n' rs' r m Hc. apply (H n'). by right.
    + split; [done|]. intros H. assert (validate_rules T rs = Ok tt); [|congruence].
      apply validate_rules_spec. intros r m. apply (H n). by left.
    + split; [done|]. intros H. assert (validate_rules T rs = Ok tt); [|congruence].
      apply validate_rules_spec. intros r m. apply (H n). by left.
Qed.
Lemma validate_spec ho T : hash_order_ok ho → validate ho T = Ok tt ↔
  is_Some (T !! s2l "start") ∧
  ∀ n rs r m, T !! n = Some rs → r ∈ rs → r_action r = AJump m → is_Some (T !! m).
Proof.
  intros (_ & _ & Hho). unfold validate. change (s2l "start") with START_CHAIN.
  destruct (T !! START_CHAIN) as [rs0|]; [|split; [done|by intros [[] _]]].
  rewrite validate_chains_spec. split.
  - intros H. split; [done|]. intros n rs r m Hn. apply (H n). rewrite Hho. by apply elem_of_map_to_list.
  - intros [_ H] n rs r m Hn. apply (H n). apply elem_of_map_to_list. by rewrite <- Hho.
Qed.
Lemma validate_error ho T : validate ho T = Ok tt ∨ validate ho T = Err EChainNotFound.
Proof.
  unfold validate. destruct (T !! START_CHAIN) as [rs0|]; [|by right].
  induction (ho_strs ho (list rule) T) as [|[n rs] cs IH]; cbn [validate_chains snd]; [by left|].
  assert (validate_rules T rs = Ok tt ∨ validate_rules T rs = Err EChainNotFound) as [-> | ->]; [|done|by right].
  induction rs as [|r rs IHr]; cbn [validate_rules]; [by left|].
  assert (validate_action T (r_action r) = Ok tt ∨ validate_action T (r_action r) = Err EChainNotFound) as [-> | ->]; [|done|by right].
  destruct (r_action r); cbn; auto. destruct (T !! name); auto.
Qed.

Lemma ends_chain_found X T : (∀ n, used T n → is_Some (T !! n)) →
  (∀ a c out, acts X T a c out → (∀ m, within (AJump m) a → used T m) → out ≠ Err EChainNotFound) ∧
  (∀ rs c out, rules_end X T rs c out → (∀ r m, r ∈ rs → within (AJump m) (r_action r) → used T m) → out ≠ Err EChainNotFound) ∧
  (∀ name c out, chain_ends X T name c out → used T name → out ≠ Err EChainNotFound).
Proof.
  intros HT. apply ends_mind; try done.
  - intros name c out _ IH Hm. apply IH. apply Hm. constructor.
  - intros a l c c1 out _ _ _ IH Hm. apply IH. intros m Hw. apply Hm. inversion Hw; subst.
    eapply within_all; [by right|done].
  - intros a l c e _ IH Hm. apply IH. intros m Hw. apply Hm. apply (within_all _ a); [by left|done].
  - intros r rs c out _ _ IH Hm. apply IH. intros r' m Hr'. apply Hm. by right.
  - intros r rs c e _ _ IH Hm. apply IH. intros m. apply Hm. by left.
  - intros r rs c c1 out _ _ _ _ _ IH Hm. apply IH. intros r' m Hr'. apply Hm. by right.
  - intros name rs c out E _ IH Hu. apply IH. intros r m Hr Hw. eapply rtc_r; [exact Hu|]. by exists rs, r.
  - intros name c E Hu. destruct (HT name Hu). congruence.
Qed.
Lemma chains_found X ho T n tps : hash_order_ok ho → (∀ name, used T name → is_Some (T !! name)) →
  update_transactions X ho T n tps ≠ Some (Err EChainNotFound).
Proof.
  intros Hho HT H. apply update_transactions_stop in H; [|done]. destruct H as (b & tp & a & -> & _ & H).
  unfold update_transaction in H. destruct (HT (s2l "start")) as [rs Hrs]; [by apply rtc_refl|].
  change (s2l "start") with START_CHAIN in Hrs. rewrite Hrs in H. clear Hrs.
  destruct tp as [t ps]. cbn [tp_trn tp_posts] in H.
  assert (update_posts (apply_chain X ho T n START_CHAIN) t ps ≠ Some (Err EChainNotFound)) as Hp.
  { clear H. revert t. induction ps as [|p ps IH]; intros t; cbn [update_posts]; [done|].
    destruct (apply_chain X ho T n START_CHAIN (RCtx t p)) as [[c|e|]|] eqn:E; cbn [run_bind]; [|intros [= ->]|done|done].
    - specialize (IH (rc_trn c)). intros H.
      destruct (update_posts (apply_chain X ho T n START_CHAIN) (rc_trn c) ps) as [[[t' ps']|e|]|]; cbn in H; congruence.
    - apply (chain_sound X ho T n) in E; [|done]. revert E. intros E.
      destruct (ends_chain_found X T HT) as (_ & _ & H). by apply (H _ _ _ E); [apply rtc_refl|]. }
  destruct (update_posts (apply_chain X ho T n START_CHAIN) t ps) as [[[t' ps']|e|]|]; cbn in H; congruence.
Qed.
Lemma c73_validated X ho T n tps : hash_order_ok ho → validate ho T = Ok tt →
  (∀ name rs r m, T !! name = Some rs → r ∈ rs → within (AJump m) (r_action r) → r_action r = AJump m) →
  update_transactions X ho T n tps ≠ Some (Err EChainNotFound).
Proof.
  intros Hho Hv Hn. apply chains_found; [done|]. apply validate_spec in Hv as [Hs Hv]; [|done].
  intros name Hu. apply rtc_inv_r in Hu as [<-|(y & _ & H2)]; [done|].
  destruct H2 as (rs & r & E & Hr & Hw). apply (Hv y rs r); [done|done|]. by apply (Hn y rs).
Qed.

(** * C56, C74: termination *)

Section terminates.
  Variables (X : text_env) (ho : hash_order) (T : table).
  Lemma act_ends j a c : (∀ m c, within (AJump m) a → j m c ≠ None) → apply_action X j a c ≠ None.
  Proof.
    revert c. induction a as [l IH|a Ha] using action_nest; intros c Hj.
    - rewrite apply_action_all. revert c. induction IH as [|a l Ha _ IH]; intros c; cbn [apply_list]; [done|].
      assert (apply_action X j a c ≠ None).
      { apply Ha. intros m c' Hw. apply Hj. apply (within_all _ a); [by left|done]. }
      destruct (apply_action X j a c) as [[c'|e|]|]; cbn [run_bind]; try done.
      apply IH. intros m c'' Hw. apply Hj. inversion Hw; subst. eapply within_all; [by right|done].
    - rewrite apply_action_rest by done. destruct (do_edit X a c); [done|]. destruct a; try done.
      apply Hj. constructor.
  Qed.
  Lemma rules_ends j rs c : (∀ r m c, r ∈ rs → within (AJump m) (r_action r) → j m c ≠ None) →
    apply_rules X ho j rs c ≠ None.
  Proof.
    revert c. induction rs as [|r rs IH]; intros c Hj; cbn [apply_rules]; [done|]. unfold apply_rule.
    assert (∀ c, apply_rules X ho j rs c ≠ None) as IH'.
    { intros c'. apply IH. intros r' m c'' Hr'. apply Hj. by right. }
    destruct (is_match X ho (r_predicate r) c); [|apply IH'].
    assert (apply_action X j (r_action r) c ≠ None).
    { apply act_ends. intros m c' Hw. apply (Hj r); [by left|done]. }
    destruct (apply_action X j (r_action r) c) as [[c'|e|]|]; cbn [run_bind]; try done.
    destruct (r_result r); [apply IH'|done].
  Qed.
  Lemma chain_terminates (n : nat) (name : str) (c : rctx) (V : gset str) :
    (∀ m, rtc (jumps T) name m → ¬ tc (jumps T) m m) →
    (∀ v, v ∈ V → tc (jumps T) v name) → size ((dom T : gset str) ∖ V) < n →
    apply_chain X ho T n name c ≠ None.
  Proof.
    revert name c V. induction n as [|n IH]; intros name c V Hcy HV Hn; [lia|]. cbn [apply_chain].
    destruct (T !! name) as [rs|] eqn:E; [|done]. apply rules_ends. intros r m c' Hr Hw.
    assert (jumps T name m) as Hj by (by exists rs, r).
    apply (IH m c' ({[name]} ∪ V)).
    - intros m' Hm'. apply Hcy. by eapply rtc_l.
    - intros v [->%elem_of_singleton|Hv]%elem_of_union; [by apply tc_once|].
      eapply tc_r; [by apply HV|done].
    - assert (size ((dom T : gset str) ∖ ({[name]} ∪ V)) < size ((dom T : gset str) ∖ V)); [|lia].
      apply subset_size. split; [set_solver|]. intros Hsub.
      assert (name ∈ (dom T : gset str) ∖ V) as Hin.
      { apply elem_of_difference. split; [by apply elem_of_dom_2 in E|]. intros Hv.
        apply (Hcy name); [apply rtc_refl|]. by apply HV. }
      apply Hsub in Hin. set_solver.
  Qed.
  Lemma c74 tps : (∀ m, used T m → ¬ tc (jumps T) m m) → update_transactions X ho T (S (size T)) tps ≠ None.
  Proof.
    intros Hcy. assert (∀ c, apply_chain X ho T (S (size T)) START_CHAIN c ≠ None) as Hc.
    { intros c. apply (chain_terminates _ _ _ ∅); [done|set_solver|]. rewrite difference_empty_L. rewrite size_dom. lia. }
    intros H. apply update_transactions_stop in H; [|done]. destruct H as (b & tp & a & -> & _ & H).
    unfold update_transaction in H. destruct (T !! START_CHAIN); [|done].
    destruct tp as [t ps]. cbn [tp_trn tp_posts] in H.
    assert (update_posts (apply_chain X ho T (S (size T)) START_CHAIN) t ps ≠ None) as Hp.
    { clear H. revert t. induction ps as [|p ps IH]; intros t; cbn [update_posts]; [done|].
      specialize (Hc (RCtx t p)).
      destruct (apply_chain X ho T (S (size T)) START_CHAIN (RCtx t p)) as [[c|e|]|] eqn:E; cbn [run_bind]; try done.
      specialize (IH (rc_trn c)).
      destruct (update_posts (apply_chain X ho T (S (size T)) START_CHAIN) (rc_trn c) ps) as [[[t' ps']|e|]|]; done. }
    destruct (update_posts (apply_chain X ho T (S (size T)) START_CHAIN) t ps) as [[[t' ps']|e|]|]; cbn in H; congruence.
  Qed.
End terminates.

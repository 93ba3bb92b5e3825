(** Proofs for C141: merging commutes with renaming accounts and currencies. *)
From Verif Require Import Base Types CommentModel MergeModel CmdModel SpecBase BaseProofs HeaderClaims HeaderLaws PostLaws RelLaws RenameClaims CmdClaims CmdMerge CmdMerge2 CmdPlain ReRun.
From Coq Require Import Lia.
Local Open Scope nat_scope.

Section rename.
Context (A C : str → Prop) (fa fc : str → str) (Ha : stay_apart A fa) (Hc : stay_apart C fc).

Definition named (p : posting_internal) : Prop :=
  A (p_account (pi_raw p)) ∧ ∀ a, a ∈ amounts_of (pi_raw p) → C (cm_name (a_commodity a)).
Definition renames (p p' : posting_internal) : Prop := named p ∧ p' = rename_post fa fc p.
Definition headed (t t' : transaction_internal) : Prop := t' = t.

Lemma str_eqb_apart (D : str → Prop) f a b : stay_apart D f → D a → D b → str_eqb (f a) (f b) = str_eqb a b.
Proof. intros H H1 H2. unfold str_eqb. apply bool_decide_ext. split; [by apply H|by intros ->]. Qed.
Lemma amount_apart a b : C (cm_name (a_commodity a)) → C (cm_name (a_commodity b)) →
  amount_eqb (rename_amount fc a) (rename_amount fc b) = amount_eqb a b.
Proof. intros H1 H2. unfold amount_eqb, commodity_eqb. cbn. by rewrite (str_eqb_apart C fc). Qed.
Lemma price_apart a b : (∀ x, x ∈ price_amount <$> option_list a → C (cm_name (a_commodity x))) →
  (∀ x, x ∈ price_amount <$> option_list b → C (cm_name (a_commodity x))) →
  opt_eqb price_eqb (rename_price fc <$> a) (rename_price fc <$> b) = opt_eqb price_eqb a b.
Proof.
  intros H1 H2. destruct a as [a|], b as [b|]; [|done..]. cbn.
  specialize (H1 (price_amount a) ltac:(cbn; left)). specialize (H2 (price_amount b) ltac:(cbn; left)).
  destruct a, b; try done; cbn in *; by apply amount_apart.
Qed.
Lemma named_amount p pa : named p → p_amount (pi_raw p) = Some pa →
  C (cm_name (a_commodity (pa_amount pa))) ∧
  (∀ x, x ∈ price_amount <$> option_list (pa_lot_price pa) → C (cm_name (a_commodity x))) ∧
  (∀ x, x ∈ price_amount <$> option_list (pa_price pa) → C (cm_name (a_commodity x))).
Proof.
  intros [_ H] E. unfold amounts_of in H. rewrite E in H. split_and!.
  - apply H. rewrite <- app_comm_cons. left.
  - intros x Hx. apply H. rewrite <- app_comm_cons. right. apply elem_of_app. left. rewrite fmap_app. apply elem_of_app. by left.
  - intros x Hx. apply H. rewrite <- app_comm_cons. right. apply elem_of_app. left. rewrite fmap_app. apply elem_of_app. by right.
Qed.
Lemma named_balance p a : named p → p_balance (pi_raw p) = Some (BalAmount a) → C (cm_name (a_commodity a)).
Proof. intros [_ H] E. apply H. unfold amounts_of. rewrite E. apply elem_of_app. right. by left. Qed.

Lemma renames_tags p p' : renames p p' → tags (pi_comment p') = tags (pi_comment p).
Proof. by intros [_ ->]. Qed.
Lemma renames_matches p p' q q' : renames p p' → renames q q' → matches p' q' = matches p q.
Proof.
  intros [Hp ->] [Hq ->]. unfold matches. cbn [rename_post pi_raw pi_comment p_account p_amount p_balance].
  rewrite (str_eqb_apart A fa); [|done|apply Hp|apply Hq]. f_equal; [f_equal|].
  - destruct (p_amount (pi_raw p)) as [a|] eqn:E1, (p_amount (pi_raw q)) as [b|] eqn:E2; [|done..]. cbn.
    destruct (named_amount p a Hp E1) as (H1 & H2 & H3), (named_amount q b Hq E2) as (K1 & K2 & K3).
    unfold posting_amount_eqb. cbn. rewrite amount_apart by done. rewrite (price_apart (pa_lot_price a) (pa_lot_price b)) by done. by rewrite (price_apart (pa_price a) (pa_price b)).
  - destruct (p_balance (pi_raw p)) as [[|a]|] eqn:E1, (p_balance (pi_raw q)) as [[|b]|] eqn:E2; try done. cbn.
    apply amount_apart; [by apply (named_balance p)|by apply (named_balance q)].
Qed.
Lemma rename_merge p q : rename_post fa fc (merge_posting p q) = merge_posting (rename_post fa fc p) (rename_post fa fc q).
Proof.
  unfold merge_posting, rename_post. destruct p as [[pa pr pm pb ps pc] pcom], q as [[qa qr qm qb qs qc] qcom].
  cbn [pi_raw pi_comment p_account p_reality p_amount p_balance p_status p_comment].
  destruct (_ && _), ps as [[]|], qs as [[]|], pb as [pb|]; reflexivity.
Qed.
Lemma named_merge p q : named p → named q → named (merge_posting p q).
Proof.
  intros Hp Hq. destruct (merge_posting_fields p q) as (E1 & E2 & E3 & _). split.
  - rewrite E1. destruct (_ && _); [apply Hq|apply Hp].
  - intros a. unfold amounts_of. rewrite E2, E3. rewrite elem_of_app. intros [H|H].
    + apply Hp. unfold amounts_of. apply elem_of_app. by left.
    + destruct (p_balance (pi_raw p)) as [b|] eqn:Eb.
      * apply Hp. unfold amounts_of. apply elem_of_app. right. by rewrite Eb.
      * apply Hq. unfold amounts_of. apply elem_of_app. by right.
Qed.
Lemma renames_merge p p' q q' : renames p p' → renames q q' → renames (merge_posting p q) (merge_posting p' q').
Proof. intros [Hp ->] [Hq ->]. split; [by apply named_merge|]. symmetry. apply rename_merge. Qed.
Lemma renames_tag p p' t : renames p p' →
  renames (PI (pi_raw p) (set_tags (λ s, {[t]} ∪ s) (pi_comment p))) (PI (pi_raw p') (set_tags (λ s, {[t]} ∪ s) (pi_comment p'))).
Proof. intros [Hp ->]. split; [apply Hp|done]. Qed.
Lemma headed_day t t' : headed t t' → t_date (ti_raw t') = t_date (ti_raw t).
Proof. by intros ->. Qed.

Lemma rename_rel tps : only_names A C tps → Forall2 (trn_rel headed renames) tps (rename fa fc <$> tps).
Proof.
  intros H. induction tps as [|tp tps IH]; [constructor|]. rewrite fmap_cons. apply List.Forall2_cons.
  - split; [done|]. cbn. assert (∀ p, p ∈ tp_posts tp → named p) as Hp by (intros p Hp; by apply (H tp p ltac:(left))).
    clear -Hp. induction (tp_posts tp) as [|p ps IH]; [constructor|]. rewrite fmap_cons. apply List.Forall2_cons.
    + split; [|done]. apply Hp. by left.
    + apply IH. intros q Hq. apply Hp. by right.
  - apply IH. intros tp' p Htp. apply H. by right.
Qed.
Lemma rel_rename tps tps' : Forall2 (trn_rel headed renames) tps tps' → tps' = rename fa fc <$> tps ∧ only_names A C tps.
Proof.
  induction 1 as [|tp tp' tps tps' [Ht Hps] H [-> IH]]; [split; [done|]; intros ? ? Hx; by apply elem_of_nil in Hx|]. split.
  - rewrite fmap_cons. f_equal. destruct tp as [t ps], tp' as [t' ps']. cbn in *. unfold rename. cbn. f_equal; [done|].
    induction Hps as [|p p' ps ps' [_ ->] Hps IHp]; [done|]. rewrite fmap_cons. by f_equal.
  - intros x p [->|Hx]%elem_of_cons Hp; [|by apply (IH x p)]. clear -Hps Hp.
    induction Hps as [|q q' ps ps' [Hq _] Hps IHp]; [by apply elem_of_nil in Hp|]. apply elem_of_cons in Hp as [->|Hp]; [done|by apply IHp].
Qed.
Definition same_state := rel_m headed renames.
Lemma state_new : same_state merger_new merger_new.
Proof. split; [split; [constructor|done]|]. split; [constructor|done]. Qed.
Lemma state_merge ho m m' tps : same_state m m' → only_names A C tps →
  same_state (merge ho m tps).1 (merge ho m' (rename fa fc <$> tps)).1 ∧
  (merge ho m' (rename fa fc <$> tps)).2 = rmap (fmap (rename fa fc)) (merge ho m tps).2 ∧
  ∀ un, (merge ho m tps).2 = Ok un → only_names A C un.
Proof.
  intros Hm Hn.
  destruct (rel_merge_eq headed renames headed_day renames_tags renames_matches renames_merge renames_tag ho m m' tps _ Hm (rename_rel tps Hn)) as [H1 H2].
  split; [done|]. destruct (merge ho m tps).2 as [un|e|], (merge ho m' (rename fa fc <$> tps)).2 as [un'|e'|]; cbn in *; try done.
  - apply rel_rename in H2 as [-> H2]. split; [done|]. intros ? [= ->]. done.
  - by subst.
Qed.
Lemma state_build ho m m' : same_state m m' → build ho m' = rmap (fmap (rename fa fc)) (build ho m).
Proof.
  intros Hm. pose proof (rel_build_eq headed renames ho m m' Hm) as H.
  destruct (build ho m), (build ho m'); cbn in *; try done; [|by subst]. by apply rel_rename in H as [-> _].
Qed.
Lemma made_state m m' : made_renamed A C fa fc m m' → same_state m m'.
Proof. induction 1; [apply state_new|by apply state_merge]. Qed.

Lemma c141 m m' ho tps : made_renamed A C fa fc m m' → only_names A C tps →
  (merge ho m' (rename fa fc <$> tps)).2 = rmap (fmap (rename fa fc)) (merge ho m tps).2 ∧
  build ho m' = rmap (fmap (rename fa fc)) (build ho m).
Proof. intros H%made_state Hn. split; [by apply state_merge|by apply state_build]. Qed.
Lemma c141_merges ho m m' sets un m1 : same_state m m' → only_names A C (mjoin sets) → merges ho m sets un m1 →
  ∃ m1', merges ho m' (rename_inputs fa fc sets) (rename fa fc <$> un) m1' ∧ same_state m1 m1'.
Proof.
  intros Hm Hn H. revert m' Hm Hn. induction H as [m|m s m1 u sets un m2 Hs H IH]; intros m' Hm Hn; [exists m'; by split; [constructor|]|].
  destruct (state_merge ho m m' s Hm) as (H1 & H2 & _).
  { intros tp p Htp. apply Hn. csimpl. apply elem_of_app. by left. }
  rewrite Hs in H1, H2. cbn in H1, H2.
  destruct (IH _ H1) as (m2' & H3 & H4).
  { intros tp p Htp. apply Hn. csimpl. apply elem_of_app. by right. }
  exists m2'. split; [|done]. unfold rename_inputs. rewrite fmap_cons, fmap_app. econstructor; [|done].
  destruct (merge ho m' (rename fa fc <$> s)); cbn in *. by rewrite H2.
Qed.
Lemma c141_merges_back ho m m' sets un1 m1' : same_state m m' → only_names A C (mjoin sets) →
  merges ho m' (rename_inputs fa fc sets) un1 m1' → ∃ un m1, merges ho m sets un m1.
Proof.
  intros Hm Hn H. revert m m' un1 m1' Hm Hn H. induction sets as [|s sets IH]; intros m m' un1 m1' Hm Hn H; [exists [], m; constructor|].
  unfold rename_inputs in H. rewrite fmap_cons in H. inversion H as [|? ? m2 u ? un ? Hs H']; subst.
  destruct (state_merge ho m m' s Hm) as (H1 & H2 & _).
  { intros tp p Htp. apply Hn. csimpl. apply elem_of_app. by left. }
  rewrite Hs in H1, H2. cbn in H1, H2. destruct (merge ho m s) as [mm [u0|e|]] eqn:Em; cbn in H2; try done. cbn in H1.
  destruct (IH mm m2 un m1' H1) as (un0 & m3 & H3); [|done|].
  { intros tp p Htp. apply Hn. csimpl. apply elem_of_app. by right. }
  exists (u0 ++ un0), m3. by econstructor.
Qed.

Lemma c141_command E ho inputs inputs2 um um2 output output2 w w2 tpss w0 w20 es es2 r r2 :
  hash_order_ok ho → only_names A C (mjoin tpss) →
  journals E w inputs tpss w0 → journals E w2 inputs2 (rename_inputs fa fc tpss) w20 →
  (is_Some um ↔ is_Some um2) → um ≠ Some Stdio → um2 ≠ Some Stdio → um ≠ Some output → um2 ≠ Some output2 →
  (∀ f, um = Some f → writable E f) → (∀ f, um2 = Some f → writable E f) → writable E output → writable E output2 →
  merge_cmd E ho inputs um output w = (es, r) → merge_cmd E ho inputs2 um2 output2 w2 = (es2, r2) →
  (r = Ok tt ↔ r2 = Ok tt) ∧
  (r = Ok tt → ∃ out un back back2,
     holds w (steps w es) output (e_print E (into_ledger ho out)) ∧
     holds w2 (steps w2 es2) output2 (e_print E (into_ledger ho (rename fa fc <$> out))) ∧
     Forall2 unsourced back un ∧ Forall2 unsourced back2 (rename fa fc <$> un) ∧
     (un ≠ [] → ∃ f f2, um = Some f ∧ um2 = Some f2 ∧
        holds w (steps w es) f (e_print E (into_ledger ho back)) ∧
        holds w2 (steps w2 es2) f2 (e_print E (into_ledger ho back2)))).
Proof.
  intros Hho Hn Hj Hj2 Hum Hs Hs2 Ho Ho2 Hw Hw2 Hwo Hwo2 Hr Hr2.
  destruct (merges_dec ho tpss merger_new) as [(un & m & Hm)|Hno].
  2:{ assert (∀ un m, ¬ merges ho merger_new (rename_inputs fa fc tpss) un m) as Hno2.
      { intros un m Hm. destruct (c141_merges_back ho _ _ _ _ _ state_new Hn Hm) as (un0 & m0 & H). by eapply Hno. }
      destruct (c99_journals_failed E ho inputs um output w tpss w0 es r Hho Hj) as [[e ->] _]; [|done|].
      { intros un m [H _]. by eapply Hno. }
      destruct (c99_journals_failed E ho inputs2 um2 output2 w2 _ w20 es2 r2 Hho Hj2) as [[e2 ->] _]; [|done|].
      { intros un m [H _]. by eapply Hno2. }
      split; [split; by intros [=]|by intros [=]]. }
  destruct (c141_merges ho _ _ _ _ _ state_new Hn Hm) as (m' & Hm' & Hst).
  pose proof (state_build ho m m' Hst) as Hb.
  destruct (decide (un = [] ∨ is_Some um)) as [Hok|Hbad].
  2:{ destruct (c99_journals_failed E ho inputs um output w tpss w0 es r Hho Hj) as [[e ->] _]; [|done|].
      { intros un1 m1 [H H1]. by destruct (merges_fun _ _ _ _ _ _ _ Hm H) as [-> ->]. }
      destruct (c99_journals_failed E ho inputs2 um2 output2 w2 _ w20 es2 r2 Hho Hj2) as [[e2 ->] _]; [|done|].
      { intros un1 m1 [H H1]. destruct (merges_fun _ _ _ _ _ _ _ Hm' H) as [<- <-]. apply Hbad.
        rewrite Hum. destruct H1 as [H1|H1]; [left|by right]. by apply fmap_nil_inv in H1. }
      split; [split; by intros [=]|by intros [=]]. }
  destruct (c99_journals E ho inputs um output w tpss w0 un m Hho Hj Hm Hok Hw Hwo) as (es' & back & out & E1 & E2 & E3 & F1 & F2 & _).
  destruct (c99_journals E ho inputs2 um2 output2 w2 _ w20 _ m' Hho Hj2 Hm') as (es2' & back2 & out2 & G1 & G2 & G3 & I1 & I2 & _); [|done|done|].
  { destruct Hok as [->|H]; [by left|right]. by apply Hum. }
  rewrite Hr in E1. rewrite Hr2 in G1. injection E1 as -> ->. injection G1 as -> ->. split; [done|]. intros _.
  rewrite E2, G2 in Hb. cbn in Hb. injection Hb as ->.
  exists out, un, back, back2. split_and!; [apply F1; by left|apply I1; by left|done|done|].
  intros Hne. destruct Hok as [->|[f Hf]]; [done|]. destruct (proj1 Hum) as [f2 Hf2]; [by eexists|].
  exists f, f2. split_and!; [done|done| |].
  - apply F2; [done|done|congruence].
  - apply I2; [done|by intros ?%fmap_nil_inv|congruence].
Qed.
End rename.

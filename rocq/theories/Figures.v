(** Proofs for C146: merging only compares amounts. *)
From Verif Require Import MergeClaims.
From Verif Require Import Base Types CommentModel MergeModel CmdModel SpecBase BaseProofs MergeLemmas HeaderClaims HeaderLaws PostLaws RelLaws FigureClaims CmdClaims CmdMerge CmdMerge2 CmdPlain ReRun.
Local Open Scope nat_scope.

Section other.
Context (R : amount → amount → Prop) (HR : tells_apart R).

Lemma other_amount a a' b b' : R a a' → R b b' → amount_eqb a' b' = amount_eqb a b.
Proof. intros H1 H2. apply eq_true_iff_eq. rewrite !amount_eqb_spec. by apply HR. Qed.
Lemma other_price a a' b b' : option_Forall2 (price_other R) a a' → option_Forall2 (price_other R) b b' →
  opt_eqb price_eqb a' b' = opt_eqb price_eqb a b.
Proof.
  intros [x x' Hx|] [y y' Hy|]; [|done..]. cbn. destruct x, x', y, y'; try done; cbn in *; by apply other_amount.
Qed.
Lemma other_matches p p' q q' : post_other R p p' → post_other R q q' → matches p' q' = matches p q.
Proof.
  intros [A1 _ _ _ A5 A6 A7] [B1 _ _ _ B5 B6 B7]. unfold matches. rewrite A1, A5, B1, B5. f_equal; [f_equal|].
  - destruct A6 as [x x' (X1 & X2 & X3)|], B6 as [y y' (Y1 & Y2 & Y3)|]; [|done..]. cbn. unfold posting_amount_eqb.
    rewrite (other_amount (pa_amount x) (pa_amount x') (pa_amount y) (pa_amount y')) by done.
    rewrite (other_price (pa_lot_price x) (pa_lot_price x') (pa_lot_price y) (pa_lot_price y')) by done.
    by rewrite (other_price (pa_price x) (pa_price x') (pa_price y) (pa_price y')).
  - destruct A7 as [x x' X|], B7 as [y y' Y|]; [|done..]. destruct x, x', y, y'; try done. cbn in *. by apply other_amount.
Qed.
Lemma other_tags p p' : post_other R p p' → tags (pi_comment p') = tags (pi_comment p).
Proof. intros H. by rewrite (po_comment R _ _ H). Qed.
Lemma other_merge p p' q q' : post_other R p p' → post_other R q q' → post_other R (merge_posting p q) (merge_posting p' q').
Proof.
  destruct p as [[pa pr pm pb ps pc] pcom], p' as [[pa' pr' pm' pb' ps' pc'] pcom'],
    q as [[qa qr qm qb qs qc] qcom], q' as [[qa' qr' qm' qb' qs' qc'] qcom'].
  intros [A1 A2 A3 A4 A5 A6 A7] [B1 B2 B3 B4 B5 B6 B7]. cbn in *. subst. unfold merge_posting.
  cbn [pi_raw pi_comment p_account p_reality p_amount p_balance p_status p_comment].
  destruct (_ && _), ps as [[]|], qs as [[]|], A7; split; cbn; try done; by constructor.
Qed.
Lemma other_tag p p' t : post_other R p p' →
  post_other R (PI (pi_raw p) (set_tags (λ s, {[t]} ∪ s) (pi_comment p))) (PI (pi_raw p') (set_tags (λ s, {[t]} ∪ s) (pi_comment p'))).
Proof. intros [A1 A2 A3 A4 A5 A6 A7]. split; cbn; try done. by rewrite A5. Qed.
Definition same_head (t t' : transaction_internal) : Prop := t' = t.
Lemma same_head_day t t' : same_head t t' → t_date (ti_raw t') = t_date (ti_raw t).
Proof. by intros ->. Qed.

Definition other_state := rel_m same_head (post_other R).
Lemma other_new : other_state merger_new merger_new.
Proof. split; [split; [constructor|done]|]. split; [constructor|done]. Qed.
Lemma other_step ho m m' tps tps' : other_state m m' → Forall2 (trn_other R) tps tps' →
  other_state (merge ho m tps).1 (merge ho m' tps').1 ∧
  result_alike (Forall2 (trn_other R)) (merge ho m tps).2 (merge ho m' tps').2.
Proof.
  intros Hm Ht. exact (rel_merge_eq same_head (post_other R) same_head_day other_tags other_matches other_merge other_tag ho m m' tps tps' Hm Ht).
Qed.
Lemma other_made m m' : made_other R m m' → other_state m m'.
Proof. induction 1; [apply other_new|by apply other_step]. Qed.
Lemma other_build ho m m' : other_state m m' → result_alike (Forall2 (trn_other R)) (build ho m) (build ho m').
Proof. exact (rel_build_eq same_head (post_other R) ho m m'). Qed.
Lemma c146 m m' ho tps tps' : made_other R m m' → Forall2 (trn_other R) tps tps' →
  result_alike (Forall2 (trn_other R)) (merge ho m tps).2 (merge ho m' tps').2 ∧
  result_alike (Forall2 (trn_other R)) (build ho m) (build ho m').
Proof. intros H%other_made Ht. split; [by apply other_step|by apply other_build]. Qed.

Lemma other_merges ho sets sets' : Forall2 (Forall2 (trn_other R)) sets sets' → ∀ m m', other_state m m' →
  (∃ un un' m1 m1', merges ho m sets un m1 ∧ merges ho m' sets' un' m1' ∧ Forall2 (trn_other R) un un' ∧ other_state m1 m1') ∨
  ((∀ un m1, ¬ merges ho m sets un m1) ∧ ∀ un m1, ¬ merges ho m' sets' un m1).
Proof.
  induction 1 as [|s s' sets sets' Hs H IH]; intros m m' Hm.
  { left. exists [], [], m, m'. split_and!; [constructor..|done]. }
  destruct (other_step ho m m' s s' Hm Hs) as [H1 H2].
  destruct (merge ho m s) as [m2 [u|e|]] eqn:E1, (merge ho m' s') as [m2' [u'|e'|]] eqn:E2; try done; cbn in H1, H2.
  - destruct (IH m2 m2' H1) as [(un & un' & m1 & m1' & J1 & J2 & J3 & J4)|[J1 J2]].
    + left. exists (u ++ un), (u' ++ un'), m1, m1'. split_and!; [by econstructor|by econstructor|by apply Forall2_app|done].
    + right. split; intros un m1 Hx; inversion Hx as [|? ? m3 v ? un2 ? Hv H']; subst.
      * rewrite E1 in Hv. injection Hv as -> ->. by eapply J1.
      * rewrite E2 in Hv. injection Hv as -> ->. by eapply J2.
  - right. split; intros un m1 Hx; inversion Hx as [|? ? m3 v ? un2 ? Hv H']; subst; congruence.
  - right. split; intros un m1 Hx; inversion Hx as [|? ? m3 v ? un2 ? Hv H']; subst; congruence.
Qed.

Lemma c146_command E ho inputs inputs2 um um2 output output2 w w2 tpss tpss2 w0 w20 es es2 r r2 :
  hash_order_ok ho → Forall2 (Forall2 (trn_other R)) tpss tpss2 →
  journals E w inputs tpss w0 → journals E w2 inputs2 tpss2 w20 →
  (is_Some um ↔ is_Some um2) → um ≠ Some Stdio → um2 ≠ Some Stdio → um ≠ Some output → um2 ≠ Some output2 →
  (∀ f, um = Some f → writable E f) → (∀ f, um2 = Some f → writable E f) → writable E output → writable E output2 →
  merge_cmd E ho inputs um output w = (es, r) → merge_cmd E ho inputs2 um2 output2 w2 = (es2, r2) →
  (r = Ok tt ↔ r2 = Ok tt) ∧
  (r = Ok tt → ∃ out out2 un un2 back back2,
     holds w (steps w es) output (e_print E (into_ledger ho out)) ∧
     holds w2 (steps w2 es2) output2 (e_print E (into_ledger ho out2)) ∧ Forall2 (trn_other R) out out2 ∧
     Forall2 (trn_other R) un un2 ∧ Forall2 unsourced back un ∧ Forall2 unsourced back2 un2 ∧
     (un ≠ [] → ∃ f f2, um = Some f ∧ um2 = Some f2 ∧
        holds w (steps w es) f (e_print E (into_ledger ho back)) ∧
        holds w2 (steps w2 es2) f2 (e_print E (into_ledger ho back2)))).
Proof.
  intros Hho Hn Hj Hj2 Hum Hs Hs2 Ho Ho2 Hw Hw2 Hwo Hwo2 Hr Hr2.
  destruct (other_merges ho _ _ Hn _ _ other_new) as [(un & un2 & m & m' & Hm & Hm' & HF & Hst)|[Hno Hno2]].
  2:{ destruct (c99_journals_failed E ho inputs um output w tpss w0 es r Hho Hj) as [[e ->] _]; [|done|].
      { intros un m [H _]. by eapply Hno. }
      destruct (c99_journals_failed E ho inputs2 um2 output2 w2 _ w20 es2 r2 Hho Hj2) as [[e2 ->] _]; [|done|].
      { intros un m [H _]. by eapply Hno2. }
      split; [split; by intros [=]|by intros [=]]. }
  pose proof (other_build ho m m' Hst) as Hb.
  assert (Hnil : un = [] ↔ un2 = []) by (by destruct HF).
  destruct (decide (un = [] ∨ is_Some um)) as [Hok|Hbad].
  2:{ destruct (c99_journals_failed E ho inputs um output w tpss w0 es r Hho Hj) as [[e ->] _]; [|done|].
      { intros un1 m1 [H H1]. by destruct (merges_fun _ _ _ _ _ _ _ Hm H) as [-> ->]. }
      destruct (c99_journals_failed E ho inputs2 um2 output2 w2 _ w20 es2 r2 Hho Hj2) as [[e2 ->] _]; [|done|].
      { intros un1 m1 [H H1]. destruct (merges_fun _ _ _ _ _ _ _ Hm' H) as [<- <-]. apply Hbad.
        rewrite Hum. by rewrite Hnil. }
      split; [split; by intros [=]|by intros [=]]. }
  destruct (c99_journals E ho inputs um output w tpss w0 un m Hho Hj Hm Hok Hw Hwo) as (es' & back & out & E1 & E2 & E3 & F1 & F2 & _).
  destruct (c99_journals E ho inputs2 um2 output2 w2 _ w20 _ m' Hho Hj2 Hm') as (es2' & back2 & out2 & G1 & G2 & G3 & I1 & I2 & _); [|done|done|].
  { rewrite <- Hnil, <- Hum. done. }
  rewrite Hr in E1. rewrite Hr2 in G1. injection E1 as -> ->. injection G1 as -> ->. split; [done|]. intros _.
  rewrite E2, G2 in Hb. cbn in Hb.
  exists out, out2, un, un2, back, back2. split_and!; [apply F1; by left|apply I1; by left|done|done|done|done|].
  intros Hne. destruct Hok as [->|[g Hg]]; [done|]. destruct (proj1 Hum) as [g2 Hg2]; [by eexists|].
  exists g, g2. split_and!; [done|done| |].
  - apply F2; [done|done|congruence].
  - apply I2; [done|by rewrite <- Hnil|congruence].
Qed.
End other.

Lemma written_apart : tells_apart same_amount.
Proof.
  intros a a' b b' [H1 H2] [H3 H4]. unfold same_amount. rewrite <- H2, <- H4. split; intros [H H']; (split; [|done]).
  - by rewrite H1, H3.
  - by rewrite <- H1, <- H3.
Qed.

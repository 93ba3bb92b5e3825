(** Renaming flag tags: the merge command (C144). *)
From Verif Require Import MergeClaims.
From Verif Require Import Base Types SpecBase BaseProofs CommentModel MergeModel CmdModel MergeSpec CmdClaims HeaderClaims RenameClaims RetagClaims
  MergeProofs MergeLemmas CmdMerge CmdIdem CmdPlain ReRun Retag.
Local Open Scope nat_scope.

Section retag.
Context (F : str → Prop) (f : str → str) (Hk : keeps_kinds f) (Ha : stay_apart F f).

Definition alike_back (u u' : transaction_postings) : Prop := equal_but_candidates (retag f u) u'.

Lemma retag_merges ho ho' m m' sets : hash_order_ok ho → hash_order_ok ho' → made_retagged F f m m' → only_fps F (mjoin sets) →
  (∃ un un' m1 m1', merges ho m sets un m1 ∧ merges ho' m' (retag_inputs f sets) un' m1' ∧ Forall2 alike_back un un' ∧
     made_retagged F f m1 m1') ∨
  ((∀ un m1, ¬ merges ho m sets un m1) ∧ ∀ un m1, ¬ merges ho' m' (retag_inputs f sets) un m1).
Proof.
  intros Hho Hho'. revert m m'. induction sets as [|s sets IH]; intros m m' Hm Ho.
  { left. exists [], [], m, m'. split_and!; [constructor..|done]. }
  assert (only_fps F s) as Hs by (intros tp p t Htp; apply Ho; csimpl; apply elem_of_app; by left).
  assert (only_fps F (mjoin sets)) as Hss by (intros tp p t Htp; apply Ho; csimpl; apply elem_of_app; by right).
  pose proof (made_retagged_merge F f m m' ho ho' s Hm Hho Hho' Hs) as Hm2.
  destruct (c144 F f Hk Ha m m' ho ho' s Hho Hho' Hm Hs) as [[(u & u' & H1 & H2 & H3)|(e & e' & H1 & H2)] _].
  - destruct (IH _ _ Hm2 Hss) as [(un & un' & m1 & m1' & J1 & J2 & J3 & J4)|[J1 J2]].
    + left. exists (u ++ un), (u' ++ un'), m1, m1'. split_and!; [| |by apply Forall2_app|done].
      * econstructor; [|exact J1]. rewrite (surjective_pairing (merge ho m s)). by rewrite H1.
      * unfold retag_inputs. rewrite fmap_cons. econstructor; [|exact J2]. rewrite (surjective_pairing (merge ho' m' _)). by rewrite H2.
    + right. split.
      * intros un m1 H. inversion H as [|? ? m2 v ? un2 ? Hv H']; subst. rewrite Hv in J1. by eapply J1.
      * intros un m1 H. unfold retag_inputs in H. rewrite fmap_cons in H. inversion H as [|? ? m2 v ? un2 ? Hv H']; subst.
        rewrite Hv in J2. by eapply J2.
  - right. split.
    + intros un m1 H. inversion H as [|? ? m2 v ? un2 ? Hv H']; subst. by rewrite Hv in H1.
    + intros un m1 H. unfold retag_inputs in H. rewrite fmap_cons in H. inversion H as [|? ? m2 v ? un2 ? Hv H']; subst. by rewrite Hv in H2.
Qed.

Lemma c144_command E ho ho2 inputs inputs2 um um2 output output2 w w2 tpss w0 w20 es es2 r r2 :
  hash_order_ok ho → hash_order_ok ho2 → only_fps F (mjoin tpss) →
  journals E w inputs tpss w0 → journals E w2 inputs2 (retag_inputs f tpss) w20 →
  (is_Some um ↔ is_Some um2) → um ≠ Some Stdio → um2 ≠ Some Stdio → um ≠ Some output → um2 ≠ Some output2 →
  (∀ f, um = Some f → writable E f) → (∀ f, um2 = Some f → writable E f) → writable E output → writable E output2 →
  merge_cmd E ho inputs um output w = (es, r) → merge_cmd E ho2 inputs2 um2 output2 w2 = (es2, r2) →
  (r = Ok tt ↔ r2 = Ok tt) ∧
  (r = Ok tt → ∃ out un un2 back back2,
     holds w (steps w es) output (e_print E (into_ledger ho out)) ∧
     holds w2 (steps w2 es2) output2 (e_print E (into_ledger ho (retag f <$> out))) ∧
     Forall2 alike_back un un2 ∧ Forall2 unsourced back un ∧ Forall2 unsourced back2 un2 ∧
     (un ≠ [] → ∃ f f2, um = Some f ∧ um2 = Some f2 ∧
        holds w (steps w es) f (e_print E (into_ledger ho back)) ∧
        holds w2 (steps w2 es2) f2 (e_print E (into_ledger ho back2)))).
Proof.
  intros Hho Hho2 Hn Hj Hj2 Hum Hs Hs2 Ho Ho2 Hw Hw2 Hwo Hwo2 Hr Hr2.
  destruct (retag_merges ho ho2 _ _ tpss Hho Hho2 (made_retagged_new F f) Hn) as [(un & un2 & m & m' & Hm & Hm' & HF & Hst)|[Hno Hno2]].
  2:{ destruct (c99_journals_failed E ho inputs um output w tpss w0 es r Hho Hj) as [[e ->] _]; [|done|].
      { intros un m [H _]. by eapply Hno. }
      destruct (c99_journals_failed E ho2 inputs2 um2 output2 w2 _ w20 es2 r2 Hho2 Hj2) as [[e2 ->] _]; [|done|].
      { intros un m [H _]. by eapply Hno2. }
      split; [split; by intros [=]|by intros [=]]. }
  destruct (c144 F f Hk Ha m m' ho ho2 [] Hho Hho2 Hst) as [_ Hb]; [by intros tp p t Htp%elem_of_nil|].
  assert (Hnil : un = [] ↔ un2 = []) by (by destruct HF).
  destruct (decide (un = [] ∨ is_Some um)) as [Hok|Hbad].
  2:{ destruct (c99_journals_failed E ho inputs um output w tpss w0 es r Hho Hj) as [[e ->] _]; [|done|].
      { intros un1 m1 [H H1]. by destruct (merges_fun _ _ _ _ _ _ _ Hm H) as [-> ->]. }
      destruct (c99_journals_failed E ho2 inputs2 um2 output2 w2 _ w20 es2 r2 Hho2 Hj2) as [[e2 ->] _]; [|done|].
      { intros un1 m1 [H H1]. destruct (merges_fun _ _ _ _ _ _ _ Hm' H) as [<- <-]. apply Hbad.
        rewrite Hum. by rewrite Hnil. }
      split; [split; by intros [=]|by intros [=]]. }
  destruct (c99_journals E ho inputs um output w tpss w0 un m Hho Hj Hm Hok Hw Hwo) as (es' & back & out & E1 & E2 & E3 & F1 & F2 & _).
  destruct (c99_journals E ho2 inputs2 um2 output2 w2 _ w20 _ m' Hho2 Hj2 Hm') as (es2' & back2 & out2 & G1 & G2 & G3 & I1 & I2 & _); [|done|done|].
  { rewrite <- Hnil, <- Hum. done. }
  rewrite Hr in E1. rewrite Hr2 in G1. injection E1 as -> ->. injection G1 as -> ->. split; [done|]. intros _.
  rewrite E2, G2 in Hb. cbn in Hb. injection Hb as ->. rewrite (into_ledger_order ho2 ho) in I1 by done. rewrite (into_ledger_order ho2 ho) in I2 by done.
  exists out, un, un2, back, back2. split_and!; [apply F1; by left|apply I1; by left|done|done|done|].
  intros Hne. destruct Hok as [->|[g Hg]]; [done|]. destruct (proj1 Hum) as [g2 Hg2]; [by eexists|].
  exists g, g2. split_and!; [done|done| |].
  - apply F2; [done|done|congruence].
  - apply I2; [done|by rewrite <- Hnil|congruence].
Qed.
End retag.

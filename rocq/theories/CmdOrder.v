(** The merge command gives the same files for every order of hash tables. *)
From stdpp Require Import gmap list.
From Verif Require Import Base Types CommentModel MergeModel CmdModel SpecBase BaseProofs MergeSpec MergeClaims PropsMergeProofs
  CommentClaims CmdClaims CmdProofs CmdMerge CmdMerge2 CmdIdem CmdExamples.
Local Open Scope nat_scope.

Lemma merges_order ho ho' m sets un m' : hash_order_ok ho → hash_order_ok ho' → reachable m → merges ho m sets un m' →
  ∃ un', merges ho' m sets un' m' ∧ Forall2 equal_but_candidates un un'.
Proof.
  intros H H' Hr Hm. induction Hm as [m|m s m1 u sets un m2 E1 Hm IH].
  - exists []. split; constructor.
  - destruct (c17 m ho ho' s Hr H H') as (Em & _ & Hres).
    destruct IH as (un' & Hun & HF). { eapply merges_reachable; [exact H|exact Hr|]. econstructor; [exact E1|constructor]. }
    rewrite E1 in Em, Hres. cbn [fst snd] in Em, Hres. destruct Hres as [(u1 & u' & [= <-] & Eu & HFu)|(e & e' & [=] & _)].
    destruct (merge ho' m s) as [m1' r'] eqn:E2. cbn [fst snd] in *. subst. exists (u' ++ un'). split; [by econstructor|].
    by apply Forall2_app.
Qed.
Lemma merge_complete_order E ho ho' w inputs um un m : hash_order_ok ho → hash_order_ok ho' → merge_complete E ho w inputs um un m →
  ∃ un', merge_complete E ho' w inputs um un' m ∧ Forall2 equal_but_candidates un un'.
Proof.
  intros H H' [(sets & w' & Ha & Hm) Hp]. destruct (merges_order ho ho' _ _ _ _ H H' reach_new Hm) as (un' & Hm' & HF).
  exists un'. split; [|done]. constructor; [by exists sets, w'|]. destruct Hp as [->|Hp]; [|by right]. left. by inversion HF.
Qed.
Lemma merge_cmd_order E ho ho' inputs um output w es r es' r' :
  hash_order_ok ho → hash_order_ok ho' → (∀ f, um = Some f → writable E f) → writable E output →
  merge_cmd E ho inputs um output w = (es, r) → merge_cmd E ho' inputs um output w = (es', r') →
  let w1 := steps w es in let w2 := steps w es' in
  (r = Ok tt ∧ r' = Ok tt ∧
   (∀ p, um ≠ Some (Path p) → w_files w1 !! p = w_files w2 !! p) ∧
   (output = Stdio → um ≠ Some Stdio → w_stdout w1 = w_stdout w2) ∧
   ∃ un un', Forall2 equal_but_candidates un un' ∧
     ∀ f, um = Some f → f ≠ output →
       match un with
       | [] => ∀ p, f = Path p → same_file w w1 p ∧ same_file w w2 p
       | _ => holds w w1 f (e_print E (into_ledger ho un)) ∧ holds w w2 f (e_print E (into_ledger ho un'))
       end) ∨
  (∃ e e', r = Err e ∧ r' = Err e' ∧ untouched w w1 ∧ untouched w w2).
Proof.
  intros H H' Hum Hout E1 E2. cbv zeta.
  destruct (merge_cmd_spec E ho inputs um output w H) as (es0 & r0 & E0 & Hcase). rewrite E1 in E0. injection E0 as <- <-.
  assert ((∃ un m, merge_complete E ho w inputs um un m) ∨ (∀ un m, ¬ merge_complete E ho w inputs um un m)) as [(un & m & Hc)|Hn].
  { destruct Hcase as [(_ & _ & Hn)|(un & m & out & es1 & es2 & es3 & Hc & _)]; [right; exact Hn|left; eauto]. }
  - left. destruct (merge_complete_order E ho ho' _ _ _ _ _ H H' Hc) as (un' & Hc' & HF).
    destruct (c25_success E ho inputs um output w un m H Hc Hum Hout) as [es1 X1]. rewrite E1 in X1. injection X1 as -> ->.
    destruct (c25_success E ho' inputs um output w un' m H' Hc' Hum Hout) as [es2 X2]. rewrite E2 in X2. injection X2 as -> ->.
    destruct (c25_written E ho inputs um output w es1 H E1) as (un1 & m1 & out1 & out1' & C1 & B1 & U1 & W1 & V1 & O1).
    destruct (c25_written E ho' inputs um output w es2 H' E2) as (un2 & m2 & out2 & out2' & C2 & B2 & U2 & W2 & V2 & O2).
    destruct (merge_complete_fun _ _ _ _ _ _ _ _ _ C1 Hc) as [-> ->]. destruct (merge_complete_fun _ _ _ _ _ _ _ _ _ C2 Hc') as [-> ->].
    assert (reachable m) as Hr. { destruct Hc as [(sets & w' & _ & Hm) _]. eapply merges_reachable; [exact H|exact reach_new|exact Hm]. }
    destruct (c17 m ho ho' [] Hr H H') as (_ & Eb & _). rewrite B1, B2 in Eb. injection Eb as ->.
    assert (out2' = out1') as ->.
    { clear -U1 U2. revert out2' U2. induction U1 as [|x y l k Hxy _ IH]; intros [|z k'] U2; inversion U2; subst; [done|].
      f_equal; [by eapply unsourced_fun|]. by apply IH. }
    rewrite (into_ledger_order ho' ho out1' H' H) in W2. rewrite (into_ledger_order ho' ho un' H' H) in V2.
    assert (un = [] ↔ un' = []) as Hnil by (split; intros ->; by inversion HF).
    split_and!; [done|done| | |].
    + intros p Hp. destruct (decide (Path p = output)) as [<-|Hne].
      * assert (Path p ≠ Stdio) as Hps by discriminate. specialize (W1 (or_intror (or_intror Hps))). specialize (W2 (or_intror (or_intror Hps))).
        cbn [holds] in W1, W2. congruence.
      * pose proof (O1 p Hne ltac:(done)) as S1. pose proof (O2 p Hne ltac:(done)) as S2. unfold same_file in *. congruence.
    + intros -> Hs. specialize (W1 (or_introl Hs)). specialize (W2 (or_introl Hs)). cbn [holds] in W1, W2. congruence.
    + exists un, un'. split; [done|]. intros f Hf Hne. destruct un as [|t un].
      * intros p ->. split; [apply O1; [done|done]|apply O2; [done|]]. intros _. by apply Hnil.
      * split; [by apply V1|]. apply V2; [done| |done]. intros Hx. by apply Hnil in Hx.
  - right. assert (∀ un m, ¬ merge_complete E ho' w inputs um un m) as Hn'.
    { intros un m Hc. destruct (merge_complete_order E ho' ho _ _ _ _ _ H' H Hc) as (un' & Hc' & _). by eapply Hn. }
    destruct (c25_failure E ho inputs um output w es r H E1 Hn) as [[e ->] X1].
    destruct (c25_failure E ho' inputs um output w es' r' H' E2 Hn') as [[e' ->] X2].
    exists e, e'. split_and!; [done|done|apply X1, crash_self|apply X2, crash_self].
Qed.

(** The merge command does what merging the journals does. *)
From Verif Require Import Base Types CommentModel MergeModel CmdModel SpecBase BaseProofs MergeSpec MergeClaims MergeBuild
  CommentClaims CmdClaims CmdProofs CmdMerge CmdMerge2 CmdIdem HeaderClaims HeaderLaws.
Local Open Scope nat_scope.

Lemma unsourced_fun x y y' : unsourced x y → unsourced x y' → y = y'.
Proof.
  intros (H1 & H2 & H3 & H4 & H5 & H6) (H1' & H2' & H3' & H4' & H5' & H6').
  destruct y as [[raw [l t v]] ps], y' as [[raw' [l' t' v']] ps']. cbn [ti_raw ti_comment tp_trn tp_posts lines tags value_tags] in *. subst. do 3 f_equal. apply map_eq. intros k.
  destruct (decide (k = s2l "source-file")) as [->|Hk]; [by rewrite H5, H5'|by rewrite H6, H6'].
Qed.
Lemma unsourced_all_fun l k k' : Forall2 unsourced l k → Forall2 unsourced l k' → k = k'.
Proof.
  intros H. revert k'. induction H as [|x y l k Hxy H IH]; intros k' H'; inversion H'; subst; [done|]. f_equal; [by eapply unsourced_fun|by apply IH].
Qed.
Lemma sourced_unsourced file x : source_tag x = None → unsourced (sourced file x) x.
Proof.
  intros H. unfold unsourced, sourced. destruct x as [[raw [l t v]] ps]. unfold source_tag in H. cbn [ti_raw ti_comment tp_trn tp_posts lines tags value_tags] in *. split_and!; try done. intros k Hk. by rewrite lookup_insert_ne.
Qed.
Definition source_rel (a b : transaction_internal) : Prop := unsourced (TP a []) (TP b []).
Lemma source_alike tp tp' : trn_alike source_rel tp tp' ↔ unsourced tp tp'.
Proof. unfold trn_alike, source_rel, unsourced. destruct tp as [a ps], tp' as [b ps']. cbn [ti_raw ti_comment tp_trn tp_posts lines tags value_tags]. split; [intros [(_ & H) ->]|intros (-> & H)]; split; try done; split; done. Qed.
Lemma source_alike_all l l' : Forall2 (trn_alike source_rel) l l' ↔ Forall2 unsourced l l'.
Proof. split; intros H; (eapply Forall2_impl; [exact H|]; apply source_alike). Qed.
Lemma source_date a b : source_rel a b → t_date (ti_raw b) = t_date (ti_raw a).
Proof. intros (_ & H & _). cbn [ti_raw ti_comment tp_trn tp_posts lines tags value_tags] in H. by rewrite H. Qed.

Lemma merges_plain ho m m' sets plain : sim source_rel m m' → Forall2 (Forall2 unsourced) sets plain →
  (∀ un m1, merges ho m sets un m1 → ∃ un' m1', merges ho m' plain un' m1' ∧ Forall2 unsourced un un' ∧ sim source_rel m1 m1') ∧
  (∀ un' m1', merges ho m' plain un' m1' → ∃ un m1, merges ho m sets un m1 ∧ Forall2 unsourced un un' ∧ sim source_rel m1 m1').
Proof.
  intros Hs H. revert m m' Hs. induction H as [|s p sets plain Hsp H IH]; intros m m' Hs.
  - split; intros un m1 Hm; inversion Hm; subst; eexists _, _; (split; [constructor|]); (split; [constructor|done]).
  - apply source_alike_all in Hsp. destruct (merge_alike _ source_date ho m m' s p Hs Hsp) as [Hs' Hr].
    split; intros un m1 Hm; inversion Hm as [|? ? m2 u ? un2 ? E Hm2]; subst; rewrite E in Hs', Hr; cbn [fst snd] in *.
    + destruct (merge ho m' p) as [m2' [u'| |]] eqn:E'; try done. cbn [fst snd] in *. destruct (IH m2 m2' Hs') as [IH1 _].
      destruct (IH1 _ _ Hm2) as (un' & m1' & Hm' & Hun & Hs1). exists (u' ++ un'), m1'. split; [by econstructor|]. split; [|done].
      apply Forall2_app; [by apply source_alike_all|done].
    + destruct (merge ho m s) as [m2' [u'| |]] eqn:E'; try done. cbn [fst snd] in *. destruct (IH m2' m2 Hs') as [_ IH2].
      destruct (IH2 _ _ Hm2) as (un' & m1' & Hm' & Hun & Hs1). exists (u' ++ un'), m1'. split; [by econstructor|]. split; [|done].
      apply Forall2_app; [by apply source_alike_all|done].
Qed.
Lemma sim_new R : sim R merger_new merger_new.
Proof. split; [done|]. split; [constructor|done]. Qed.

Lemma c99_done E ho inputs um output w sets w' plain un m :
  hash_order_ok ho → all_inputs E w inputs sets w' → Forall2 (Forall2 unsourced) sets plain →
  merges ho merger_new plain un m → (un = [] ∨ is_Some um) → (∀ f, um = Some f → writable E f) → writable E output →
  ∃ es un' out, merge_cmd E ho inputs um output w = (es, Ok tt) ∧ build ho m = Ok out ∧ Forall2 unsourced un' un ∧
    let w1 := steps w es in
    (um ≠ Some Stdio ∨ un = [] ∨ output ≠ Stdio → holds w w1 output (e_print E (into_ledger ho out))) ∧
    (∀ f, um = Some f → un ≠ [] → f ≠ output → holds w w1 f (e_print E (into_ledger ho un'))) ∧
    (∀ p, Path p ≠ output → (um = Some (Path p) → un = []) → same_file w w1 p).
Proof.
  intros Hho Ha Hp Hm Hun Hum Hout.
  destruct (merges_plain ho merger_new merger_new sets plain (sim_new _) Hp) as [_ H2].
  destruct (H2 _ _ Hm) as (un' & m1 & Hm1 & Hu & Hs).
  assert (un' = [] ↔ un = []) as Hnil by (split; intros ->; by inversion Hu).
  assert (merge_complete E ho w inputs um un' m1) as Hc.
  { split; [eauto|]. destruct Hun as [->|?]; [left; by apply Hnil|by right]. }
  destruct (c25_success E ho inputs um output w un' m1 Hho Hc Hum Hout) as [es Hes].
  destruct (c25_written E ho inputs um output w es Hho Hes) as (un2 & m2 & out & out' & Hc2 & Hb & Hoo & Hw).
  destruct (merge_complete_fun _ _ _ _ _ _ _ _ _ Hc Hc2) as [<- <-].
  assert (Hba := build_alike _ ho m1 m Hs). rewrite Hb in Hba. destruct (build ho m) as [out2| |]; try done.
  cbn in Hba. apply source_alike_all in Hba. assert (out2 = out') as -> by (by eapply unsourced_all_fun).
  exists es, un', out'. split; [done|]. split; [done|]. split; [done|]. cbv zeta in *. destruct Hw as (W1 & W2 & W3). split_and!.
  - intros H. apply W1. rewrite Hnil. done.
  - intros f Hf Hne. apply W2; [done|]. by rewrite Hnil.
  - intros p Hp' Hpu. apply W3; [done|]. by rewrite Hnil.
Qed.
Lemma c99_failed E ho inputs um output w sets w' plain es r :
  hash_order_ok ho → all_inputs E w inputs sets w' → Forall2 (Forall2 unsourced) sets plain →
  (∀ un m, ¬ (merges ho merger_new plain un m ∧ (un = [] ∨ is_Some um))) →
  merge_cmd E ho inputs um output w = (es, r) →
  (∃ e, r = Err e) ∧ ∀ w', crash_world w es w' → untouched w w'.
Proof.
  intros Hho Ha Hp Hn Hr. apply (c25_failure E ho inputs um output w es r Hho Hr).
  intros un m [(sets' & w1 & Ha' & Hm) Hpl]. destruct (all_inputs_fun _ _ _ _ _ _ _ Ha Ha') as [<- <-].
  destruct (merges_plain ho merger_new merger_new sets plain (sim_new _) Hp) as [H1 _].
  destruct (H1 _ _ Hm) as (un' & m1 & Hm1 & Hu & Hs). apply (Hn un' m1). split; [done|]. destruct Hpl as [->|?]; [left; by inversion Hu|by right].
Qed.

(** Journals without source tags. *)
Lemma merge_none ho m : merge ho m [] = (m, Ok []).
Proof. done. Qed.
Lemma journals_sets E w fs tpss w' : journals E w fs tpss w' →
  ∃ sets, all_inputs E w fs sets w' ∧ Forall2 (Forall2 unsourced) sets (filter (λ tps, tps ≠ []) tpss).
Proof.
  induction 1 as [w|w f l w1 fs tpss w2 Hr Hs Ht H (sets & Ha & Hf)]; [exists []; split; constructor|].
  set (tps := transaction_postings_of <$> ledger_trns l).
  assert (∀ tp, tp ∈ tps → source_tag tp = None) as Ht' by (intros tp (t & -> & Hin)%elem_of_list_fmap; by apply Ht).
  destruct (decide (tps = [])) as [E0|Hne].
  - exists ([] ++ sets). split; [econstructor; [done|done| |done]|].
    + exists []. split; [constructor|]. split; [|done]. intros s. split; [by intros ?%elem_of_nil|]. intros (tp & Htp & _). fold tps in Htp. rewrite E0 in Htp. by apply elem_of_nil in Htp.
    + rewrite filter_cons_False by (intros ?; done). done.
  - exists ([sourced (filespec_display E f) <$> tps] ++ sets). split; [econstructor; [done|done|by apply by_source_none|done]|].
    rewrite filter_cons_True by done. cbn [app]. constructor; [|done].
    clear -Ht'. induction tps as [|tp tps IH]; [constructor|]. rewrite fmap_cons. constructor; [apply sourced_unsourced, Ht'; left|]. apply IH. intros x Hx. apply Ht'. by right.
Qed.
Lemma merges_filter ho m tpss un m' : merges ho m tpss un m' ↔ merges ho m (filter (λ tps, tps ≠ []) tpss) un m'.
Proof.
  revert m un. induction tpss as [|tps tpss IH]; intros m un; [done|]. destruct (decide (tps = [])) as [->|Hne].
  - rewrite filter_cons_False by (intros ?; done). rewrite <- IH. split.
    + intros H. inversion H as [|? ? m1 u ? un2 ? E H2]; subst. rewrite merge_none in E. injection E as <- <-. done.
    + intros H. apply (merges_cons ho m [] m [] tpss un m'); [done|done].
  - rewrite filter_cons_True by done. split; intros H; inversion H; subst; (econstructor; [done|]); by apply IH.
Qed.
Lemma c99_journals E ho inputs um output w tpss w' un m :
  hash_order_ok ho → journals E w inputs tpss w' →
  merges ho merger_new tpss un m → (un = [] ∨ is_Some um) → (∀ f, um = Some f → writable E f) → writable E output →
  ∃ es un' out, merge_cmd E ho inputs um output w = (es, Ok tt) ∧ build ho m = Ok out ∧ Forall2 unsourced un' un ∧
    let w1 := steps w es in
    (um ≠ Some Stdio ∨ un = [] ∨ output ≠ Stdio → holds w w1 output (e_print E (into_ledger ho out))) ∧
    (∀ f, um = Some f → un ≠ [] → f ≠ output → holds w w1 f (e_print E (into_ledger ho un'))) ∧
    (∀ p, Path p ≠ output → (um = Some (Path p) → un = []) → same_file w w1 p).
Proof.
  intros Hho Hj Hm. destruct (journals_sets _ _ _ _ _ Hj) as (sets & Ha & Hf). apply merges_filter in Hm. by eapply c99_done.
Qed.
Lemma c99_journals_failed E ho inputs um output w tpss w' es r :
  hash_order_ok ho → journals E w inputs tpss w' →
  (∀ un m, ¬ (merges ho merger_new tpss un m ∧ (un = [] ∨ is_Some um))) →
  merge_cmd E ho inputs um output w = (es, r) →
  (∃ e, r = Err e) ∧ ∀ w', crash_world w es w' → untouched w w'.
Proof.
  intros Hho Hj Hn. destruct (journals_sets _ _ _ _ _ Hj) as (sets & Ha & Hf). eapply c99_failed; [done..|]. intros un m [Hm Hu]. apply (Hn un m). split; [|done]. by apply merges_filter.
Qed.

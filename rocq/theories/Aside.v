(** Proofs for C139: transactions that do not concern what is merged. *)
From Verif Require Import Base Types CommentModel MergeModel SpecBase BaseProofs MergeSpec MergeClaims
  MergeProofs MergePending MergeApply MergeBuild MergeClosed MergeLemmas MergePlaces MergeLaws MergeLaws2
  MergeLaws3 MergeLaws4 MergeReplay CmdModel CmdClaims CmdProofs CmdMerge AsideClaims.
From Coq Require Import Lia.
Local Open Scope nat_scope.

(** A journal beside another, with its transactions renumbered. *)
Definition shift (n : nat) (x : jpost) : jpost := JP (n + jp_trn x) (jp_date x) (jp_post x).
Definition beside (J j : journal) : journal :=
  Journal (j_trns J ++ j_trns j) (j_posts J ++ (shift (length (j_trns J)) <$> j_posts j)).
Definition vshift (n : nat) (v : verdict) : verdict :=
  match v with VMerge i => VMerge (n + i) | VAmbiguous l => VAmbiguous (Nat.add n <$> l) | v => v end.
Definition off (J : journal) (tps : list transaction_postings) : Prop :=
  ∀ x tp p, x ∈ j_posts J → tp ∈ tps → p ∈ tp_posts tp →
    share_fpb (jp_post x) p = false ∧ bool_decide (jp_date x = tp_date tp) && matches (jp_post x) p = false.

Section beside.
  Context (J : journal).
  Notation N := (length (j_posts J)).

  Lemma beside_lookup j i : j_posts (beside J j) !! (N + i) = shift (length (j_trns J)) <$> j_posts j !! i.
  Proof. simpl. rewrite lookup_app_r by lia. rewrite list_lookup_fmap. f_equal. f_equal. lia. Qed.
  Lemma fp_hits_beside j p : (∀ x, x ∈ j_posts J → share_fpb (jp_post x) p = false) →
    fp_hits (beside J j) p = Nat.add N <$> fp_hits j p.
  Proof.
    intros H. unfold fp_hits. simpl. rewrite positions_app, positions_fmap.
    by rewrite (proj2 (positions_nil _ (j_posts J))).
  Qed.
  Lemma soft_hits_beside j d p : (∀ x, x ∈ j_posts J → bool_decide (jp_date x = d) && matches (jp_post x) p = false) →
    soft_hits (beside J j) d p = Nat.add N <$> soft_hits j d p.
  Proof.
    intros H. unfold soft_hits. simpl. rewrite positions_app, positions_fmap.
    by rewrite (proj2 (positions_nil _ (j_posts J))).
  Qed.
  Lemma lookup_beside j tp p tps : off J tps → tp ∈ tps → p ∈ tp_posts tp →
    lookup_posting (beside J j) (tp_date tp) p = vshift N (lookup_posting j (tp_date tp) p).
  Proof.
    intros H Htp Hp. unfold lookup_posting.
    rewrite fp_hits_beside by (intros x Hx; by apply (H x tp p)).
    rewrite soft_hits_beside by (intros x Hx; by apply (H x tp p)).
    destruct (fp_hits j p) as [|a [|b l]]; csimpl; [|done..].
    by destruct (soft_hits j (tp_date tp) p) as [|c [|e k]].
  Qed.
  Lemma verdicts_beside j tp tps : off J tps → tp ∈ tps → verdicts (beside J j) tp = vshift N <$> verdicts j tp.
  Proof.
    intros H Htp. unfold verdicts. rewrite <- list_fmap_compose. apply list_fmap_ext. intros i p Hp.
    simpl. apply (lookup_beside j tp p tps); [done..|by eapply elem_of_list_lookup_2].
  Qed.
  Lemma left_out_beside j tp tps : off J tps → tp ∈ tps → left_out (beside J j) tp = left_out j tp.
  Proof.
    intros H Htp. unfold left_out. rewrite (verdicts_beside j tp tps) by done.
    destruct (tp_posts tp); [done|]. generalize (verdicts j tp). intros vs.
    induction vs as [|v vs IH]; csimpl; [done|]. rewrite IH. by destruct v.
  Qed.
  Lemma dests_beside j tp tps : off J tps → tp ∈ tps → dests (beside J j) tp = Nat.add N <$> dests j tp.
  Proof.
    intros H Htp. unfold dests. rewrite (verdicts_beside j tp tps) by done. generalize (verdicts j tp). intros vs.
    induction vs as [|v vs IH]; csimpl; [done|]. rewrite IH. by destruct v.
  Qed.
  Lemma all_dests_beside j tps s : off J tps → (∀ tp, tp ∈ s → tp ∈ tps) → all_dests (beside J j) s = Nat.add N <$> all_dests j s.
  Proof.
    intros H. unfold all_dests. induction s as [|tp s IH]; intros Hs; csimpl; [done|].
    rewrite fmap_app, IH by (intros; apply Hs; by right). f_equal.
    rewrite (left_out_beside j tp tps) by (done || apply Hs; left). destruct (left_out j tp); [done|].
    apply (dests_beside j tp tps); [done|]. apply Hs. left.
  Qed.

  Lemma alter_beside (f g : jpost → jpost) i (P ps : list jpost) (h : jpost → jpost) :
    (∀ x, f (h x) = h (g x)) → alter f (length P + i) (P ++ (h <$> ps)) = P ++ (h <$> alter g i ps).
  Proof.
    intros Hfg. rewrite alter_app_r_alt by lia. f_equal. replace (length P + i - length P) with i by lia.
    symmetry. apply list_alter_fmap. apply Forall_forall. intros x _. by rewrite Hfg.
  Qed.
  Lemma apply_posts_beside t d pvs : ∀ ps,
    foldl (apply_posting (length (j_trns J) + t) d) (j_posts J ++ (shift (length (j_trns J)) <$> ps))
      (prod_map id (vshift N) <$> pvs) =
    j_posts J ++ (shift (length (j_trns J)) <$> foldl (apply_posting t d) ps pvs).
  Proof.
    induction pvs as [|[p v] pvs IH]; intros ps; [done|]. rewrite fmap_cons. cbn [foldl]. rewrite <- IH. f_equal.
    destruct v as [i| |l|]; simpl; try done.
    - by apply alter_beside.
    - unfold apply_posting. cbn [snd fst]. rewrite (fmap_app _ ps). by rewrite app_assoc.
  Qed.
  Lemma apply_beside j0 j tp tps : off J tps → tp ∈ tps →
    apply_trn (beside J j0) (beside J j) tp = beside J (apply_trn j0 j tp).
  Proof.
    intros H Htp. unfold apply_trn. rewrite (left_out_beside j0 tp tps) by done.
    destruct (left_out j0 tp); [done|]. cbv zeta.
    rewrite (verdicts_beside j0 tp tps), (dests_beside j0 tp tps) by done.
    assert (zip (tp_posts tp) (vshift N <$> verdicts j0 tp) = prod_map id (vshift N) <$> zip (tp_posts tp) (verdicts j0 tp)) as ->.
    { generalize (verdicts j0 tp). induction (tp_posts tp) as [|p l IH]; intros [|v k]; csimpl; try done. f_equal. apply IH. }
    assert ((Nat.add N <$> dests j0 tp) ≫= (λ i, option_list (jp_trn <$> j_posts (beside J j0) !! i)) =
      Nat.add (length (j_trns J)) <$> (dests j0 tp ≫= (λ i, option_list (jp_trn <$> j_posts j0 !! i)))) as ->.
    { induction (dests j0 tp) as [|i l IH]; [done|]. rewrite fmap_cons, !bind_cons, fmap_app, IH. f_equal.
      rewrite beside_lookup. by destruct (j_posts j0 !! i). }
    destruct (dests j0 tp ≫= _) as [|t l]; csimpl.
    - unfold beside at 1. rewrite app_length. cbn [j_posts j_trns beside].
      unfold beside. cbn [j_posts j_trns]. f_equal; [by rewrite app_assoc|]. apply apply_posts_beside.
    - unfold beside. cbn [j_posts j_trns]. f_equal. apply apply_posts_beside.
  Qed.
  Lemma foldl_beside j0 tps s : off J tps → (∀ tp, tp ∈ s → tp ∈ tps) → ∀ j,
    foldl (apply_trn (beside J j0)) (beside J j) s = beside J (foldl (apply_trn j0) j s).
  Proof.
    intros H. induction s as [|tp s IH]; intros Hs j; [done|]. cbn [foldl].
    rewrite (apply_beside j0 j tp tps) by (done || apply Hs; left). apply IH. intros; apply Hs. by right.
  Qed.
  Lemma spec_merge_beside j tps : off J tps → spec_merge (beside J j) tps = beside J (spec_merge j tps).
  Proof. intros H. by apply (foldl_beside j tps). Qed.

  Lemma valid_beside j tps : off J tps → valid_set (beside J j) tps ↔ valid_set j tps.
  Proof.
    intros H. split; intros [H1 H2 H3 H4 H5]; split; try done.
    - intros tp p Htp Hp. specialize (H3 tp p Htp Hp). rewrite fp_hits_beside, fmap_length in H3; [done|].
      intros x Hx. by apply (H x tp p).
    - intros tp i k x y Htp Hl Hi Hk Hx Hy.
      assert (jp_trn (shift (length (j_trns J)) x) = jp_trn (shift (length (j_trns J)) y)) as E; [|simpl in E; lia].
      apply (H4 tp (N + i) (N + k)); [done|by rewrite (left_out_beside j tp tps)|..].
      + rewrite (dests_beside j tp tps) by done. by apply elem_of_list_fmap_1.
      + rewrite (dests_beside j tp tps) by done. by apply elem_of_list_fmap_1.
      + by rewrite beside_lookup, Hx.
      + by rewrite beside_lookup, Hy.
    - rewrite (all_dests_beside j tps tps) in H5 by done. by apply NoDup_fmap_1 in H5.
    - intros tp p Htp Hp. rewrite fp_hits_beside, fmap_length; [by eapply H3|].
      intros x Hx. by apply (H x tp p).
    - intros tp i k x y Htp Hl Hi Hk Hx Hy. rewrite (left_out_beside j tp tps) in Hl by done.
      rewrite (dests_beside j tp tps) in Hi, Hk by done.
      apply elem_of_list_fmap in Hi as (i' & -> & Hi). apply elem_of_list_fmap in Hk as (k' & -> & Hk).
      rewrite beside_lookup in Hx, Hy.
      destruct (j_posts j !! i') as [x'|] eqn:Hx'; [|done]. destruct (j_posts j !! k') as [y'|] eqn:Hy'; [|done].
      injection Hx as <-. injection Hy as <-. simpl. f_equal. by apply (H4 tp i' k' x' y').
    - rewrite (all_dests_beside j tps tps) by done. apply NoDup_fmap_2; [|done]. intros a b. lia.
  Qed.
  Lemma returned_beside j tp tp' tps : off J tps → tp ∈ tps → returned_as (beside J j) tp tp' → returned_as j tp tp'.
  Proof.
    intros H Htp [E HF]. split; [done|].
    assert (∀ p, p ∈ tp_posts tp → lookup_posting (beside J j) (tp_date tp) p = vshift N (lookup_posting j (tp_date tp) p)) as Hl.
    { intros p Hp. by apply (lookup_beside j tp p tps). }
    clear E. revert Hl HF. generalize (tp_posts tp'). induction (tp_posts tp) as [|p l IH]; intros k Hl HF.
    - inversion HF; subst. constructor.
    - inversion HF as [|? q ? k' Hq HF']; subst. constructor; [|apply IH; [intros; apply Hl; by right|done]].
      rewrite Hl in Hq by left. destruct (lookup_posting j (tp_date tp) p) as [i| |a|]; simpl in Hq; try done.
      destruct Hq as (E1 & E2 & E3 & fs & Hfs & E4). split_and!; [done..|]. exists fs. split; [|done].
      clear -Hfs. revert fs Hfs. induction a as [|i a IH]; intros fs Hfs.
      + rewrite fmap_nil in Hfs. by inversion Hfs; subst; constructor.
      + rewrite fmap_cons in Hfs. inversion Hfs as [|? f ? fs' (x & Hx & Hf) Hfs']; subst. constructor; [|by apply IH].
        rewrite beside_lookup in Hx. destruct (j_posts j !! i) as [y|]; [|done]. injection Hx as <-. by exists y.
  Qed.
  Lemma filter_beside j tps (s : list transaction_postings) : off J tps → (∀ tp, tp ∈ s → tp ∈ tps) →
    filter (λ tp, left_out (beside J j) tp = true) s = filter (λ tp, left_out j tp = true) s.
  Proof.
    intros H Hs. apply filter_ext'. intros tp Htp. by rewrite (left_out_beside j tp tps) by auto.
  Qed.
  Lemma trns_beside j : (∀ x, x ∈ j_posts J → jp_trn x < length (j_trns J)) →
    journal_trns (beside J j) = journal_trns J ++ journal_trns j.
  Proof.
    intros Hlt. unfold journal_trns, beside. cbn [j_trns j_posts]. rewrite imap_app. f_equal.
    - apply imap_ext. intros i h Hh. f_equal. f_equal. rewrite filter_app. 
      rewrite (filter_none _ (shift _ <$> _)); [by rewrite app_nil_r|].
      intros x (y & -> & _)%elem_of_list_fmap. simpl. apply lookup_lt_Some in Hh. lia.
    - apply imap_ext. intros i h Hh. f_equal. rewrite filter_app.
      rewrite (filter_none _ (j_posts J)); [simpl|intros x Hx; specialize (Hlt x Hx); lia].
      clear. induction (j_posts j) as [|x l IH]; [done|]. rewrite fmap_cons. destruct (decide (jp_trn x = i)) as [E|E].
      + rewrite filter_cons_True by (simpl; lia). rewrite (filter_cons_True _ x) by done. csimpl. f_equal. apply IH.
      + rewrite filter_cons_False by (simpl; lia). rewrite (filter_cons_False _ x) by done. apply IH.
  Qed.
End beside.

(** ** Runs *)
Lemma ebc_Forall2 j J (tps u u' s : list transaction_postings) : off J tps → (∀ tp, tp ∈ s → tp ∈ tps) →
  Forall2 (returned_as j) s u → Forall2 (returned_as (beside J j)) s u' → Forall2 equal_but_candidates u u'.
Proof.
  intros H Hs H1. revert u'. induction H1 as [|tp a s u Ha H1 IH]; intros u' H2.
  - inversion H2; subst. constructor.
  - inversion H2 as [|? b ? k Hb H2']; subst. constructor; [|by apply IH; [intros; apply Hs; right|]].
    eapply returned_as_agree; [exact Ha|]. eapply returned_beside; [done|apply Hs; left|done].
Qed.
Lemma step_beside ho ho' J m m' j s m1 u : hash_order_ok ho → hash_order_ok ho' →
  reachable m → represents m j → reachable m' → represents m' (beside J j) → off J s →
  merge ho m s = (m1, Ok u) →
  ∃ m1' u', merge ho' m' s = (m1', Ok u') ∧ reachable m1 ∧ represents m1 (spec_merge j s) ∧ reachable m1' ∧
    represents m1' (beside J (spec_merge j s)) ∧ Forall2 equal_but_candidates u u'.
Proof.
  intros Hho Hho' Hr Hj Hr' Hj' Hoff Hm.
  pose proof (reachable_wf m j Hr Hj) as Hwf. pose proof (reachable_wf m' _ Hr' Hj') as Hwf'.
  destruct (merge_cases ho m j s m1 _ Hho Hj Hwf Hm) as [(Hv & _ & Hj1 & u0 & [= <-] & Hu)|(_ & _ & e & ?)]; [|done].
  destruct (merge ho' m' s) as [m1' r] eqn:Hm'.
  destruct (merge_cases ho' m' _ s m1' r Hho' Hj' Hwf' Hm') as [(_ & _ & Hj1' & u' & -> & Hu')|(Hn & _)];
    [|by destruct Hn; apply valid_beside].
  exists m1', u'. rewrite <- spec_merge_beside by done. rewrite (filter_beside J j s s) in Hu' by done. split_and!; try done.
  - replace m1 with (merge ho m s).1 by by rewrite Hm. by constructor.
  - replace m1' with (merge ho' m' s).1 by by rewrite Hm'. by constructor.
  - eapply ebc_Forall2; [exact Hoff| |exact Hu|exact Hu']. by intros tp [_ ?]%elem_of_list_filter.
Qed.
Lemma step_beside_back ho ho' J m m' j s m1' u' : hash_order_ok ho → hash_order_ok ho' →
  reachable m → represents m j → reachable m' → represents m' (beside J j) → off J s →
  merge ho' m' s = (m1', Ok u') → ∃ m1 u, merge ho m s = (m1, Ok u).
Proof.
  intros Hho Hho' Hr Hj Hr' Hj' Hoff Hm'.
  pose proof (reachable_wf m j Hr Hj) as Hwf. pose proof (reachable_wf m' _ Hr' Hj') as Hwf'.
  destruct (merge_cases ho' m' _ s m1' _ Hho' Hj' Hwf' Hm') as [(Hv & _)|(_ & _ & e & ?)]; [|done].
  destruct (merge ho m s) as [m1 r] eqn:Hm.
  destruct (merge_cases ho m j s m1 r Hho Hj Hwf Hm) as [(_ & _ & Hj1 & u & -> & Hu)|(Hn & _)]; [by eauto|].
  destruct Hn. by eapply valid_beside.
Qed.
Lemma merges_beside ho ho' J sets : hash_order_ok ho → hash_order_ok ho' → Forall (off J) sets → ∀ m m' j un mf,
  reachable m → represents m j → reachable m' → represents m' (beside J j) → merges ho m sets un mf →
  ∃ un' mf' jf, merges ho' m' sets un' mf' ∧ reachable mf ∧ represents mf jf ∧ reachable mf' ∧ represents mf' (beside J jf) ∧
    Forall2 equal_but_candidates un un'.
Proof.
  intros Hho Hho'. induction sets as [|s sets IH]; intros Ho m m' j un mf Hr Hj Hr' Hj' H.
  - inversion H; subst. exists [], m', j. split_and!; try done; constructor.
  - apply Forall_cons in Ho as [Ho1 Ho]. inversion H as [|? ? m1 u ? un1 ? Hm H1]; subst.
    destruct (step_beside ho ho' J m m' j s m1 u) as (m1' & u' & Hm' & Hr1 & Hj1 & Hr1' & Hj1' & Hu); [done..|].
    destruct (IH Ho m1 m1' _ un1 mf Hr1 Hj1 Hr1' Hj1' H1) as (un' & mf' & jf & Hms & ? & ? & ? & ? & HF).
    exists (u' ++ un'), mf', jf. split_and!; try done; [by econstructor|by apply Forall2_app].
Qed.
Lemma merges_beside_back ho ho' J sets : hash_order_ok ho → hash_order_ok ho' → Forall (off J) sets → ∀ m m' j un' mf',
  reachable m → represents m j → reachable m' → represents m' (beside J j) → merges ho' m' sets un' mf' →
  ∃ un mf, merges ho m sets un mf.
Proof.
  intros Hho Hho'. induction sets as [|s sets IH]; intros Ho m m' j un' mf' Hr Hj Hr' Hj' H.
  - exists [], m. constructor.
  - apply Forall_cons in Ho as [Ho1 Ho]. inversion H as [|? ? m1' u' ? un1 ? Hm' H1]; subst.
    destruct (step_beside_back ho ho' J m m' j s m1' u') as (m1 & u & Hm); [done..|].
    destruct (step_beside ho ho' J m m' j s m1 u) as (mx & ux & Hmx & Hr1 & Hj1 & Hr1' & Hj1' & _); [done..|].
    rewrite Hm' in Hmx. injection Hmx as <- <-.
    destruct (IH Ho m1 m1' _ un1 mf' Hr1 Hj1 Hr1' Hj1' H1) as (un & mf & Hms). exists (u ++ un), mf. by econstructor.
Qed.

(** ** The journal of a set merged into nothing *)
Lemma new_verdict d p : lookup_posting journal_new d p = VNew.
Proof. done. Qed.
Lemma new_verdicts tp : Forall (λ v, v = VNew) (verdicts journal_new tp).
Proof. unfold verdicts. apply Forall_fmap, Forall_forall. done. Qed.
Lemma new_left_out tp : left_out journal_new tp = true ↔ tp_posts tp = [].
Proof.
  unfold left_out. destruct (tp_posts tp) as [|p l]; [done|]. split; [|done]. intros H. exfalso. revert H.
  pose proof (new_verdicts tp) as H. induction H as [|v k -> H IH]; [done|]. simpl. apply IH.
Qed.
Lemma new_dests tp : dests journal_new tp = [].
Proof. unfold dests. pose proof (new_verdicts tp) as H. induction H as [|v k -> H IH]; csimpl; done. Qed.
Lemma new_dates ps t d : ∀ (P : list jpost) x, x ∈ foldl (apply_posting t d) P ps → Forall (λ pv, pv.2 = VNew) ps →
  x ∈ P ∨ (jp_date x = d ∧ jp_trn x = t ∧ jp_post x ∈ ps.*1).
Proof.
  induction ps as [|[p v] ps IH]; intros P x Hx HF; [by left|]. apply Forall_cons in HF as [Hv HF]. simpl in Hv. subst v.
  cbn [foldl] in Hx. destruct (IH _ _ Hx HF) as [H|(H1 & H2 & H3)].
  - unfold apply_posting in H. cbn [snd fst] in H. apply elem_of_app in H as [H|H%elem_of_list_singleton]; [by left|]. subst x.
    right. split_and!; [done..|]. rewrite fmap_cons. left.
  - right. split_and!; [done..|]. rewrite fmap_cons. by right.
Qed.
Lemma new_zip tp : Forall (λ pv : posting_internal * verdict, pv.2 = VNew) (zip (tp_posts tp) (verdicts journal_new tp)).
Proof.
  pose proof (new_verdicts tp) as H. apply Forall_forall. intros [p v] Hin. apply elem_of_zip_r in Hin.
  rewrite Forall_forall in H. by apply H.
Qed.
(** Its postings are those of the set, under the dates of their transactions. *)
Lemma loaded_posts tps x : x ∈ j_posts (spec_merge journal_new tps) →
  ∃ tp, tp ∈ tps ∧ jp_post x ∈ tp_posts tp ∧ jp_date x = tp_date tp.
Proof.
  unfold spec_merge.
  enough (∀ j, x ∈ j_posts (foldl (apply_trn journal_new) j tps) →
    x ∈ j_posts j ∨ ∃ tp, tp ∈ tps ∧ jp_post x ∈ tp_posts tp ∧ jp_date x = tp_date tp) as H.
  { intros Hx. destruct (H _ Hx) as [H'|H']; [by apply elem_of_nil in H'|done]. }
  induction tps as [|tp tps IH]; intros j Hx; [by left|]. cbn [foldl] in Hx.
  destruct (IH _ Hx) as [H|(tp' & ? & ? & ?)]; [|right; exists tp'; split_and!; try done; by right].
  unfold apply_trn in H. destruct (left_out journal_new tp); [by left|]. rewrite new_dests in H. cbn [mbind list_bind j_posts] in H.
  apply new_dates in H as [H|(H1 & _ & H3)]; [by left| |apply new_zip].
  right. exists tp. split_and!; [left| |done]. apply elem_of_list_fmap in H3 as ([p v] & E & Hin). rewrite E. by apply elem_of_zip_l in Hin.
Qed.
Lemma unconcerned_off old s : unconcerned old s → off (spec_merge journal_new old) s.
Proof.
  intros H x tp p Hx Htp Hp. destruct (loaded_posts _ _ Hx) as (t & Ht & Hq & Hd).
  destruct (H t (jp_post x) tp p Ht Hq Htp Hp) as [H1 H2]. split.
  - apply not_true_iff_false. by rewrite share_fpb_spec.
  - apply andb_false_iff. destruct (decide (jp_date x = tp_date tp)) as [E|E].
    + right. apply not_true_iff_false. rewrite matches_spec. apply H2. congruence.
    + left. by apply bool_decide_eq_false_2.
Qed.
Lemma off_nothing s : off journal_new s.
Proof. intros x tp p Hx. by apply elem_of_nil in Hx. Qed.
Lemma beside_new J : beside J journal_new = J.
Proof. destruct J as [ts ps]. unfold beside. simpl. by rewrite !app_nil_r. Qed.

(** Loading two parts of a journal from one file puts them beside each other. *)
Lemma loaded_app old new : spec_merge journal_new (old ++ new) = beside (spec_merge journal_new old) (spec_merge journal_new new).
Proof.
  unfold spec_merge. rewrite foldl_app. set (J := foldl _ _ old). clearbody J.
  rewrite <- (beside_new J) at 1. generalize journal_new at 2 4. induction new as [|tp new IH]; intros j; [done|].
  cbn [foldl]. rewrite <- IH. f_equal. unfold apply_trn. destruct (left_out journal_new tp); [done|]. rewrite new_dests.
  cbv zeta. cbn [mbind list_bind]. unfold beside. cbn [j_trns j_posts]. f_equal; [by rewrite app_assoc|].
  rewrite app_length. rewrite <- apply_posts_beside.
  f_equal. pose proof (new_zip tp) as H. induction H as [|[p v] l Hv H IH']; [done|]. simpl in Hv. subst v.
  rewrite fmap_cons. f_equal. exact IH'.
Qed.

Lemma put_together_sort old x l : l = stable_sort (by_key tp_date) (old ++ x) →
  put_together old (stable_sort (by_key tp_date) x) l.
Proof.
  intros ->. split.
  - apply (stable_sort_sorted (by_key tp_date)); [apply by_key_total|apply by_key_trans].
  - intros d. rewrite !(stable_sort_filter (by_key tp_date)), filter_app; [done|..];
      intros a b <- E; unfold by_key; rewrite E; apply date_leb_refl.
Qed.

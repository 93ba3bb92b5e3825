(** Exactly when a merge leaves every posting recorded under the date of its
    transaction (C19). *)
From Verif Require Import Base Types CommentModel MergeModel SpecBase BaseProofs MergeSpec MergeClaims
  MergeProofs MergePending MergeApply MergeBuild MergeClosed MergeLemmas MergePlaces MergeLaws MergeLaws2
  MergeLaws3 MergeLaws4 MergeLaws5 MergeReplay HistoryStep ResolveClaims MergeResolve DatesClaims.
From Coq Require Import Lia.
Local Open Scope nat_scope.

Lemma apply_dates_new (T : list transaction_internal) t d h : T !! t = Some h →
  ∀ ps pvs, (VNew ∈ pvs.*2 → t_date (ti_raw h) = d) →
    (∀ x h, x ∈ ps → T !! jp_trn x = Some h → jp_date x = t_date (ti_raw h)) →
    (∀ x, x ∈ ps → jp_trn x < length T) →
    (∀ x h, x ∈ foldl (apply_posting t d) ps pvs → T !! jp_trn x = Some h → jp_date x = t_date (ti_raw h)) ∧
    (∀ x, x ∈ foldl (apply_posting t d) ps pvs → jp_trn x < length T).
Proof.
  intros Ht ps pvs. revert ps. induction pvs as [|[p v] pvs IH]; intros ps Ed H1 H2; [done|].
  simpl. apply IH; unfold apply_posting; simpl.
  - intros Hn. apply Ed. csimpl. by right.
  - intros x h' Hx Hh'. destruct v as [i| | |]; try by apply H1.
    + apply elem_of_alter in Hx as [Hx|(y & Hy & ->)]; [by apply H1|]. simpl in *. by apply H1.
    + apply elem_of_app in Hx as [Hx| ->%elem_of_list_singleton]; [by apply H1|]. simpl in *.
      assert (t_date (ti_raw h) = d) as <- by (apply Ed; left). congruence.
  - intros x Hx. destruct v as [i| | |]; try by apply H2.
    + apply elem_of_alter in Hx as [Hx|(y & Hy & ->)]; [by apply H2|]. simpl in *. by apply H2.
    + apply elem_of_app in Hx as [Hx| ->%elem_of_list_singleton]; [by apply H2|]. simpl in *. by eapply lookup_lt_Some.
Qed.

Lemma spec_merge_trns j tps : j_trns j `prefix_of` j_trns (spec_merge j tps).
Proof.
  unfold spec_merge. enough (∀ l J, j_trns j `prefix_of` j_trns J → j_trns j `prefix_of` j_trns (foldl (apply_trn j) J l)) as H by by apply H.
  induction l as [|tp l IH]; intros J HJ; [done|]. simpl. apply IH. unfold apply_trn.
  destruct (left_out j tp); [done|]. destruct (dests j tp ≫= _); destruct J; simpl in *; [by apply prefix_app_r|done].
Qed.

Section laws.
  Context (m : merger) (j : journal) (Hr : reachable m) (Hj : represents m j).
  Let Hwf : journal_wf j := reachable_wf m j Hr Hj.

  Lemma dates_exact ho tps m' un j' :
    hash_order_ok ho → merge ho m tps = (m', Ok un) → represents m' j' →
    dates_agree j' ↔ dates_agree j ∧ joins_own_date j tps.
  Proof using Hr Hj.
    intros Hho Hm Hj'.
    destruct (merge_inv m j Hr Hj ho tps m' un Hho Hm) as (Hv & Hwf' & Hj1 & _).
    assert (j' = spec_merge j tps) as -> by by eapply represents_journal.
    clear Hj1 Hj'. split.
    - intros Hd. split.
      + intros x h [i Hx]%elem_of_list_lookup Hh.
        exact (Hd _ h (elem_of_list_lookup_2 _ _ _ (old_posts j tps i x Hx)) (prefix_lookup _ _ _ _ Hh (spec_merge_trns j tps))).
      + intros tp p q i x h Htp Hto Hp Hn Hq Hs Hx Hh.
        apply to_merge_spec in Hto as El.
        apply elem_of_list_lookup in Htp as [a Ha].
        apply elem_of_list_lookup in Hp as [b Hb]. apply elem_of_list_lookup in Hq as [c Hc].
        assert (a < length (the_places j tps)) as Hlt.
        { unfold the_places. rewrite places_length. by eapply lookup_lt_Some. }
        apply lookup_lt_is_Some in Hlt as [[t ls] Epl].
        destruct (place_of j tps Hwf Hv a tp t ls Ha El Epl) as [Hlen H].
        assert (b < length ls) as Hlt by (rewrite Hlen; by eapply lookup_lt_Some).
        apply lookup_lt_is_Some in Hlt as [kb Eb].
        assert (c < length ls) as Hlt by (rewrite Hlen; by eapply lookup_lt_Some).
        apply lookup_lt_is_Some in Hlt as [kc Ec].
        apply selects_spec in Hs. apply matches_nothing_spec in Hn.
        destruct (H b p kb Hb Eb) as [[(? & _ & E & _)|(_ & _ & Hl)]]; [congruence|].
        destruct (H c q kc Hc Ec) as [[(y & Hy & E & Ht & _)|(_ & E & _)]]; [|congruence].
        assert (kc = i) as -> by congruence. assert (y = x) as -> by congruence.
        symmetry. refine (Hd _ h (elem_of_list_lookup_2 _ _ _ Hl) _). simpl.
        rewrite <- Ht. exact (prefix_lookup _ _ _ _ Hh (spec_merge_trns j tps)).
    - intros [Hd Hs]. clear Hwf'. unfold spec_merge.
      enough (∀ l J, (∀ tp, tp ∈ l → tp ∈ tps) → j_trns j `prefix_of` j_trns J → dates_agree J →
        (∀ x, x ∈ j_posts J → jp_trn x < length (j_trns J)) → dates_agree (foldl (apply_trn j) J l)) as H.
      { apply H; try done. apply Hwf. }
      induction l as [|tp l IH]; intros J Hsub Hpre HdJ HltJ; [done|]. simpl.
      assert (∀ tp', tp' ∈ l → tp' ∈ tps) as Hsub' by (intros; apply Hsub; by right).
      unfold apply_trn at 2. destruct (left_out j tp) eqn:El; [by apply IH|].
      destruct (dests j tp ≫= _) as [|t ts] eqn:Ed.
      + assert ((∀ x h, x ∈ j_posts J → (j_trns J ++ [tp_trn tp]) !! jp_trn x = Some h → jp_date x = t_date (ti_raw h)))
          as Hd'.
        { intros x h Hx Hh. apply HdJ; [done|]. rewrite lookup_app_l in Hh; auto. }
        destruct J as [ts ps]; simpl in *.
        pose proof (list_lookup_middle ts [] (tp_trn tp) _ eq_refl) as Hmid.
        destruct (apply_dates (ts ++ [tp_trn tp]) (length ts) (tp_date tp) (tp_trn tp) Hmid eq_refl ps (zip (tp_posts tp) (verdicts j tp))) as [H1 H2].
        { done. } { intros x Hx. rewrite app_length. simpl. specialize (HltJ x Hx). lia. }
        apply IH; [done| |done|done]. by apply prefix_app_r.
      + assert (t ∈ t :: ts) as Hin by left. rewrite <- Ed in Hin.
        apply elem_of_list_bind in Hin as (i & Hi & Hid).
        destruct (j_posts j !! i) as [x|] eqn:Ex; simpl in Hi; [|by apply elem_of_nil in Hi].
        apply elem_of_list_singleton in Hi. subst t.
        assert (jp_trn x < length (j_trns j)) as [h Hh]%lookup_lt_is_Some.
        { apply Hwf. by eapply elem_of_list_lookup_2. }
        assert (VNew ∈ (zip (tp_posts tp) (verdicts j tp)).*2 → t_date (ti_raw h) = tp_date tp) as Et.
        { intros Hnew. unfold verdicts in Hnew. rewrite snd_zip in Hnew by (by rewrite fmap_length).
          apply elem_of_list_fmap in Hnew as (p & Ep & Hp).
          unfold dests, verdicts in Hid. apply elem_of_list_omap in Hid as (v & Hin & E).
          destruct v; simplify_eq. apply elem_of_list_fmap in Hin as (q & E & Hq).
          apply (Hs tp p q i x h); try done.
          - apply Hsub. left.
          - by apply to_merge_spec.
          - by apply matches_nothing_spec.
          - by apply selects_spec. }
        destruct (apply_dates_new (j_trns J) (jp_trn x) (tp_date tp) h) with (ps := j_posts J)
          (pvs := zip (tp_posts tp) (verdicts j tp)) as [H1 H2]; try done.
        { by eapply prefix_lookup. }
        apply IH; done.
  Qed.
End laws.

(** ** Histories *)
Lemma dates_history h j : Forall (λ s, hash_order_ok s.1) h → represents (after merger_new h) j →
  dates_agree j ↔ ∀ h1 ho s h2 j1 un, h = h1 ++ (ho, s) :: h2 → represents (after merger_new h1) j1 →
    (merge ho (after merger_new h1) s).2 = Ok un → joins_own_date j1 s.
Proof.
  revert j. induction h as [|[ho s] h IH] using rev_ind; intros j' Hh Hj'.
  - split; [|intros _].
    + intros _ [|? h1] ? ? ? ? ? E; discriminate E.
    + rewrite (represents_journal _ _ _ Hj' rep_new). intros x ? Hx; by apply elem_of_nil in Hx.
  - apply Forall_app in Hh as [Hh Hho]. apply (proj1 (Forall_singleton _ _)) in Hho. cbn [fst] in Hho.
    assert (after merger_new (h ++ [(ho, s)]) = (merge ho (after merger_new h) s).1) as Ea.
    { unfold after. by rewrite foldl_app. }
    rewrite Ea in Hj'. clear Ea.
    assert (reachable (after merger_new h)) as Hr by (apply after_reachable; [constructor|done]).
    destruct (reachable_represents _ Hr) as (j & Hj & Hwf). specialize (IH j Hh Hj).
    assert (dates_agree j' ↔ dates_agree j ∧ ∀ un, (merge ho (after merger_new h) s).2 = Ok un → joins_own_date j s) as Hstep.
    { destruct (merge ho (after merger_new h) s) as [m1 r] eqn:E. cbn [fst snd] in *.
      destruct (merge_cases ho _ j s m1 r Hho Hj Hwf E) as [(_ & _ & _ & un & -> & _)|(_ & -> & e & ->)].
      - rewrite (dates_exact _ j Hr Hj ho s m1 un j' Hho E Hj'). split; intros [H1 H2]; split; eauto.
      - rewrite (represents_journal _ _ _ Hj' Hj). split; [|tauto]. intros H. split; [done|]. intros un [=]. }
    rewrite Hstep, IH. split.
    + intros [H1 H2] h1 ho' s' h2 j1 un Eh Hj1 Hm. destruct h2 as [|c h2 _] using rev_ind.
      * apply app_inj_tail in Eh as [<- [= <- <-]]. rewrite (represents_journal _ _ _ Hj1 Hj). by eapply H2.
      * rewrite app_comm_cons, app_assoc in Eh. apply app_inj_tail in Eh as [Eh _]. by eapply (H1 h1).
    + intros H. split.
      * intros h1 ho' s' h2 j1 un -> Hj1 Hm. eapply (H h1 ho' s'); [|done..]. by rewrite <- app_assoc.
      * intros un Hm. by eapply (H h ho s []).
Qed.

(** ** The postings looked up under a date *)
Lemma filter_bind {A B} (P : B → Prop) `{∀ x, Decision (P x)} (f : A → list B) l :
  filter P (l ≫= f) = l ≫= λ x, filter P (f x).
Proof. induction l as [|x l IH]; [done|]. rewrite !bind_cons, filter_app. by rewrite IH. Qed.
Lemma dated_posts d ho m j out : hash_order_ok ho → represents m j → journal_wf j → dates_agree j → build ho m = Ok out →
  all_posts (filter (λ t, tp_date t = d) out) ≡ₚ jp_post <$> filter (λ x, jp_date x = d) (j_posts j).
Proof.
  intros Hho Hj Hwf Hd ->%(build_inv ho m j); [|done..].
  rewrite (all_posts_perm _ (filter (λ t, tp_date t = d) (journal_trns j))) by (f_equiv; apply stable_sort_perm).
  set (j0 := Journal (j_trns j) (filter (λ x, jp_date x = d) (j_posts j))).
  change (filter (λ x, jp_date x = d) (j_posts j)) with (j_posts j0).
  rewrite <- (journal_posts_perm j0).
  2:{ intros x [_ Hx]%elem_of_list_filter. by apply Hwf. }
  unfold journal_trns. cbn [j_trns j_posts j0].
  set (ps := j_posts j) in *.
  assert (∀ k T, (∀ t h, T !! t = Some h → j_trns j !! (k + t) = Some h) →
    all_posts (filter (λ t, tp_date t = d) (imap (λ t h, TP h (jp_post <$> filter (λ x, jp_trn x = k + t) ps)) T)) =
    all_posts (imap (λ t h, TP h (jp_post <$> filter (λ x, jp_trn x = k + t) (filter (λ x, jp_date x = d) ps))) T)) as H.
  2:{ pose proof (H 0 (j_trns j) (λ _ _ E, E)) as H'. cbn [Nat.add] in H'. by rewrite H'. }
  intros k T. revert k. induction T as [|h T IH]; intros k HT; [done|].
  rewrite !imap_cons. cbn [compose]. specialize (IH (S k)). 
  assert (∀ ps', imap ((λ t h, TP h (jp_post <$> filter (λ x, jp_trn x = k + t) ps')) ∘ S) T =
    imap (λ t h, TP h (jp_post <$> filter (λ x, jp_trn x = S k + t) ps')) T) as Es.
  { intros ps'. apply imap_ext. intros i x _. unfold compose. by rewrite Nat.add_succ_r. }
  rewrite !Es. 
  assert (∀ tp l, all_posts (tp :: l) = tp_posts tp ++ all_posts l) as Ea by done.
  rewrite Ea, <- IH.
  2:{ intros t h' Ht. replace (S k + t) with (k + S t) by lia. by apply HT. }
  cbn [tp_posts]. rewrite Nat.add_0_r.
  pose proof (HT 0 h eq_refl) as Hh. rewrite Nat.add_0_r in Hh.
  rewrite filter_cons. cbn [tp_date tp_trn]. destruct (decide _) as [E|E].
  - rewrite Ea. cbn [tp_posts]. f_equal. f_equal. rewrite list_filter_filter. apply filter_ext'.
    intros x Hx. split; [|tauto]. intros Ex. split; [done|]. rewrite (Hd x h); [exact E|done|]. by rewrite Ex.
  - assert (filter (λ x, jp_trn x = k) (filter (λ x, jp_date x = d) ps) = []) as ->; [|done].
    rewrite list_filter_filter. apply elem_of_nil_inv. intros x [[H1 H2] Hx]%elem_of_list_filter.
    apply E. rewrite <- H2. symmetry. apply (Hd x h); [done|]. by rewrite H1.
Qed.

(** Lookup as observed through a merge (C03) and the dates postings are recorded
    under (C19). *)
From Verif Require Import Base Types CommentModel MergeModel SpecBase BaseProofs MergeSpec MergeClaims
  MergeProofs MergePending MergeApply MergeBuild MergeClosed MergeLemmas MergePlaces MergeLaws MergeLaws2
  MergeLaws3 MergeLaws4.
From Coq Require Import Lia.
Local Open Scope nat_scope.

Lemma lookup_cases j d p :
  (conflicting j p ∧ lookup_posting j d p = VConflict) ∨
  (∃ i, selects j d p i ∧ lookup_posting j d p = VMerge i) ∨
  (matches_nothing j d p ∧ lookup_posting j d p = VNew) ∨
  (ambiguous j d p ∧ is_ambiguous (lookup_posting j d p) = true).
Proof.
  destruct (lookup_posting j d p) as [i| |l|] eqn:E.
  - right; left. exists i. by rewrite selects_spec.
  - right; right; left. by rewrite matches_nothing_spec.
  - right; right; right. rewrite ambiguous_is, E. done.
  - left. split; [|done]. rewrite conflicting_spec. unfold lookup_posting in E.
    destruct (fp_hits j p) as [|a [|b l]]; [|done|simpl; lia]. by destruct (soft_hits j d p) as [|? [|? ?]].
Qed.

Lemma journal_lookup_once j d p :
  (conflicting j p ∧ (∀ i, ¬ selects j d p i) ∧ ¬ matches_nothing j d p ∧ ¬ ambiguous j d p) ∨
  (¬ conflicting j p ∧ (∃ i, selects j d p i ∧ ∀ k, selects j d p k → k = i) ∧
   ¬ matches_nothing j d p ∧ ¬ ambiguous j d p) ∨
  (¬ conflicting j p ∧ (∀ i, ¬ selects j d p i) ∧ matches_nothing j d p ∧ ¬ ambiguous j d p) ∨
  (¬ conflicting j p ∧ (∀ i, ¬ selects j d p i) ∧ ¬ matches_nothing j d p ∧ ambiguous j d p).
Proof.
  assert (∀ v, lookup_posting j d p = v → v ≠ VConflict → ¬ conflicting j p) as Hc.
  { intros v E Hv. rewrite conflicting_spec. unfold lookup_posting in E.
    destruct (fp_hits j p) as [|a [|b l]]; simpl; [lia..|]. by subst. }
  destruct (lookup_cases j d p) as [[H E]|[(i & H & E)|[[H E]|[H E]]]].
  - left. setoid_rewrite selects_spec. rewrite matches_nothing_spec, ambiguous_is, E. naive_solver.
  - right; left. split; [by eapply Hc|]. setoid_rewrite selects_spec.
    rewrite matches_nothing_spec, ambiguous_is, E. naive_solver.
  - right; right; left. split; [by eapply Hc|]. setoid_rewrite selects_spec.
    rewrite matches_nothing_spec, ambiguous_is, E. naive_solver.
  - right; right; right. destruct (lookup_posting j d p) as [| |l|] eqn:El; try done.
    split; [by apply (Hc _ eq_refl)|]. setoid_rewrite selects_spec. rewrite matches_nothing_spec, El. naive_solver.
Qed.

Lemma elem_of_alter {A} (f : A → A) i (l : list A) x : x ∈ alter f i l → x ∈ l ∨ ∃ y, y ∈ l ∧ x = f y.
Proof.
  intros [k Hk]%elem_of_list_lookup. destruct (decide (i = k)) as [->|Hne].
  - rewrite list_lookup_alter in Hk. destruct (l !! k) as [y|] eqn:E; simplify_eq/=. right. exists y.
    split; [by eapply elem_of_list_lookup_2|done].
  - rewrite list_lookup_alter_ne in Hk by done. left. by eapply elem_of_list_lookup_2.
Qed.
Lemma apply_dates (T : list transaction_internal) t d h : T !! t = Some h → t_date (ti_raw h) = d →
  ∀ ps pvs, (∀ x h, x ∈ ps → T !! jp_trn x = Some h → jp_date x = t_date (ti_raw h)) →
    (∀ x, x ∈ ps → jp_trn x < length T) →
    (∀ x h, x ∈ foldl (apply_posting t d) ps pvs → T !! jp_trn x = Some h → jp_date x = t_date (ti_raw h)) ∧
    (∀ x, x ∈ foldl (apply_posting t d) ps pvs → jp_trn x < length T).
Proof.
  intros Ht Ed ps pvs. revert ps. induction pvs as [|[p v] pvs IH]; intros ps H1 H2; [done|].
  simpl. apply IH; unfold apply_posting; simpl.
  - intros x h' Hx Hh'. destruct v as [i| | |]; try by apply H1.
    + apply elem_of_alter in Hx as [Hx|(y & Hy & ->)]; [by apply H1|]. simpl in *. by apply H1.
    + apply elem_of_app in Hx as [Hx| ->%elem_of_list_singleton]; [by apply H1|]. simpl in *. congruence.
  - intros x Hx. destruct v as [i| | |]; try by apply H2.
    + apply elem_of_alter in Hx as [Hx|(y & Hy & ->)]; [by apply H2|]. simpl in *. by apply H2.
    + apply elem_of_app in Hx as [Hx| ->%elem_of_list_singleton]; [by apply H2|]. simpl in *. by eapply lookup_lt_Some.
Qed.

Section laws.
  Context (m : merger) (j : journal) (Hr : reachable m) (Hj : represents m j).
  Let Hwf : journal_wf j := reachable_wf m j Hr Hj.

  (** C03 *)
  Lemma lookup_observed ho tps m' un j' tp p :
    hash_order_ok ho → merge ho m tps = (m', Ok un) → represents m' j' →
    tp ∈ tps → to_merge j tp → p ∈ tp_posts tp →
    (∃ i x, selects j (tp_date tp) p i ∧ j_posts j !! i = Some x ∧
       j_posts j' !! i = Some (JP (jp_trn x) (jp_date x) (merge_posting (jp_post x) p))) ∨
    (matches_nothing j (tp_date tp) p ∧
       ∃ i t, length (j_posts j) ≤ i ∧ j_posts j' !! i = Some (JP t (tp_date tp) p)).
  Proof using Hr Hj.
    intros Hho Hm Hj' Htp Hto Hp.
    destruct (merge_inv m j Hr Hj ho tps m' un Hho Hm) as (Hv & Hwf' & Hj1 & _).
    assert (j' = spec_merge j tps) as -> by by eapply represents_journal.
    apply to_merge_spec in Hto as El.
    apply elem_of_list_lookup in Htp as [a Ha]. apply elem_of_list_lookup in Hp as [b Hb].
    assert (a < length (the_places j tps)) as Hlt.
    { unfold the_places. rewrite places_length. by eapply lookup_lt_Some. }
    apply lookup_lt_is_Some in Hlt as [[t ls] Epl].
    destruct (place_of j tps Hwf Hv a tp t ls Ha El Epl) as [Hlen H].
    assert (b < length ls) as Hlt by (rewrite Hlen; by eapply lookup_lt_Some).
    apply lookup_lt_is_Some in Hlt as [i Ei].
    destruct (H b p i Hb Ei) as [[(x & E & Hx & Ht & _ & Hl)|(Hge & E & Hl)]].
    - left. exists i, x. rewrite selects_spec. split_and!; [done..|]. by rewrite Ht.
    - right. rewrite matches_nothing_spec. eauto.
  Qed.

  (** C19 *)
  Lemma dates_kept ho tps m' un j' :
    hash_order_ok ho → merge ho m tps = (m', Ok un) → represents m' j' → dates_agree j →
    (∀ tp p i x h, tp ∈ tps → to_merge j tp → p ∈ tp_posts tp → selects j (tp_date tp) p i →
       j_posts j !! i = Some x → j_trns j !! jp_trn x = Some h → t_date (ti_raw h) = tp_date tp) →
    dates_agree j'.
  Proof using Hr Hj.
    intros Hho Hm Hj' Hd Hs.
    destruct (merge_inv m j Hr Hj ho tps m' un Hho Hm) as (Hv & Hwf' & Hj1 & _).
    assert (j' = spec_merge j tps) as -> by by eapply represents_journal.
    clear Hwf' Hj1 Hj'. unfold spec_merge.
    enough (∀ l J, (∀ tp, tp ∈ l → tp ∈ tps) → j_trns j `prefix_of` j_trns J → dates_agree J →
      (∀ x, x ∈ j_posts J → jp_trn x < length (j_trns J)) → dates_agree (foldl (apply_trn j) J l)) as H.
    { apply H; try done. apply Hwf. }
    induction l as [|tp l IH]; intros J Hsub Hpre HdJ HltJ; [done|]. simpl.
    assert (∀ tp', tp' ∈ l → tp' ∈ tps) as Hsub' by (intros; apply Hsub; by right).
    unfold apply_trn at 2. destruct (left_out j tp) eqn:El; [by apply IH|].
    destruct (dests j tp ≫= _) as [|t ts] eqn:Ed.
    - assert ((∀ x h, x ∈ j_posts J → (j_trns J ++ [tp_trn tp]) !! jp_trn x = Some h → jp_date x = t_date (ti_raw h)))
        as Hd'.
      { intros x h Hx Hh. apply HdJ; [done|]. rewrite lookup_app_l in Hh; auto. }
      destruct J as [ts ps]; simpl in *.
      pose proof (list_lookup_middle ts [] (tp_trn tp) _ eq_refl) as Hmid.
      destruct (apply_dates (ts ++ [tp_trn tp]) (length ts) (tp_date tp) (tp_trn tp) Hmid eq_refl ps (zip (tp_posts tp) (verdicts j tp))) as [H1 H2].
      { done. } { intros x Hx. rewrite app_length. simpl. specialize (HltJ x Hx). lia. }
      apply IH; [done| |done|done]. by apply prefix_app_r.
    - assert (t ∈ t :: ts) as Hin by left. rewrite <- Ed in Hin.
      apply elem_of_list_bind in Hin as (i & Hi & Hid).
      destruct (j_posts j !! i) as [x|] eqn:Ex; simpl in Hi; [|by apply elem_of_nil in Hi].
      apply elem_of_list_singleton in Hi. subst t.
      assert (jp_trn x < length (j_trns j)) as [h Hh]%lookup_lt_is_Some.
      { apply Hwf. by eapply elem_of_list_lookup_2. }
      assert (t_date (ti_raw h) = tp_date tp) as Et.
      { unfold dests, verdicts in Hid. apply elem_of_list_omap in Hid as (v & Hin & E).
        destruct v; simplify_eq. apply elem_of_list_fmap in Hin as (p & E & Hp).
        eapply (Hs tp p i x h); try done.
        - apply Hsub. left.
        - by apply to_merge_spec.
        - by apply selects_spec. }
      destruct (apply_dates (j_trns J) (jp_trn x) (tp_date tp) h) with (ps := j_posts J)
        (pvs := zip (tp_posts tp) (verdicts j tp)) as [H1 H2]; try done.
      { by eapply prefix_lookup. }
      apply IH; done.
  Qed.
End laws.

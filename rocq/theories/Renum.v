(** Proofs for C107: numbering of transactions and postings does not matter. *)
From Verif Require Import Base Types CommentModel MergeModel SpecBase BaseProofs MergeSpec MergeClaims
  MergeProofs MergePending MergeApply MergeBuild MergeClosed MergeLemmas MergePlaces MergeLaws MergeLaws2 ResolveClaims.
From Coq Require Import Lia.
Local Open Scope nat_scope.

Definition renamed (σ : nat → nat) (x : jpost) : jpost := JP (σ (jp_trn x)) (jp_date x) (jp_post x).
(** [j'] is [j] with transactions renumbered by [σ] and postings by [π]; the order
    in a transaction, and that of transactions of one date, stays. *)
Record renum (σ π : nat → nat) (j j' : journal) : Prop := {
  rn_trn : ∀ t, j_trns j' !! σ t = j_trns j !! t;
  rn_post : ∀ i, j_posts j' !! π i = renamed σ <$> j_posts j !! i;
  rn_sinj : Inj (=) (=) σ;
  rn_pinj : Inj (=) (=) π;
  rn_ssurj : ∀ t, ∃ u, σ u = t;
  rn_psurj : ∀ t, ∃ u, π u = t;
  rn_sid : ∀ t, length (j_trns j) ≤ t → σ t = t;
  rn_pid : ∀ i, length (j_posts j) ≤ i → π i = i;
  rn_sord : ∀ t u h k, j_trns j !! t = Some h → j_trns j !! u = Some k → t < u →
    t_date (ti_raw h) = t_date (ti_raw k) → σ t < σ u;
  rn_pord : ∀ i k x y, j_posts j !! i = Some x → j_posts j !! k = Some y → i < k → jp_trn x = jp_trn y → π i < π k;
}.

Lemma perm_len {A B} (f : nat → nat) (l : list A) (l' : list B) : Inj (=) (=) f → (∀ t, ∃ u, f u = t) →
  (∀ t, length l ≤ t → f t = t) → (∀ i, is_Some (l' !! f i) ↔ is_Some (l !! i)) → length l' = length l.
Proof.
  intros Hi Hs Hid H. destruct (lt_eq_lt_dec (length l') (length l)) as [[Hl|Hl]|Hl]; [|done|].
  - destruct (Hs (length l')) as [u Hu]. destruct (decide (u < length l)) as [Hlt|Hge].
    + apply lookup_lt_is_Some in Hlt. apply H in Hlt. rewrite Hu in Hlt. apply lookup_lt_is_Some in Hlt. lia.
    + rewrite Hid in Hu by lia. lia.
  - assert (is_Some (l' !! f (length l))) as Hx. { rewrite Hid by lia. by apply lookup_lt_is_Some. }
    apply H in Hx. apply lookup_lt_is_Some in Hx. lia.
Qed.

(** Lists of positions under a renumbering. *)
Section positions.
  Context {A B} (f : nat → nat) (g : A → B) (l : list A) (l' : list B) (P : A → bool) (P' : B → bool).
  Hypothesis Hf : ∀ i, l' !! f i = g <$> l !! i.
  Hypothesis Hinj : Inj (=) (=) f.
  Hypothesis Hsurj : ∀ t, ∃ u, f u = t.
  Hypothesis HP : ∀ x, x ∈ l → P' (g x) = P x.
  Lemma positions_perm : positions P' l' ≡ₚ f <$> positions P l.
  Proof using All.
    apply NoDup_Permutation; [apply NoDup_positions|apply NoDup_fmap_2; [done|apply NoDup_positions]|].
    intros k. rewrite elem_of_positions, elem_of_list_fmap. split.
    - intros (y & Hy & Hpy). destruct (Hsurj k) as [i <-]. rewrite Hf in Hy. destruct (l !! i) as [x|] eqn:Ex; [|done].
      injection Hy as <-. exists i. split; [done|]. apply elem_of_positions. exists x. split; [done|].
      rewrite <- HP; [done|by eapply elem_of_list_lookup_2].
    - intros (i & -> & (x & Hx & Hpx)%elem_of_positions). exists (g x). rewrite Hf, Hx. split; [done|].
      rewrite HP; [done|by eapply elem_of_list_lookup_2].
  Qed.
End positions.
Lemma positions_increasing {A} (P : A → bool) l : StronglySorted lt (positions P l).
Proof.
  induction l as [|x l IH]; [constructor|]. simpl.
  assert (StronglySorted lt (S <$> positions P l)) as H.
  { induction IH as [|a k Hk IHk Ha]; [constructor|]. rewrite fmap_cons. constructor; [done|].
    apply Forall_fmap. eapply Forall_impl; [exact Ha|]. simpl. lia. }
  destruct (P x); [|done]. constructor; [done|]. apply Forall_fmap, Forall_forall. simpl. lia.
Qed.
#[local] Instance lt_antisymm : AntiSymm (=) lt.
Proof. intros x y ? ?. lia. Qed.
Lemma positions_renum {A B} (f : nat → nat) (g : A → B) (l : list A) (l' : list B) (P : A → bool) (P' : B → bool) :
  (∀ i, l' !! f i = g <$> l !! i) → Inj (=) (=) f → (∀ t, ∃ u, f u = t) → (∀ x, x ∈ l → P' (g x) = P x) →
  (∀ i k x y, l !! i = Some x → l !! k = Some y → i < k → P x = true → P y = true → f i < f k) →
  positions P' l' = f <$> positions P l.
Proof.
  intros Hf Hinj Hsurj HP Hord. apply (StronglySorted_unique lt).
  - apply positions_increasing.
  - assert (∀ L, StronglySorted lt L → (∀ i, i ∈ L → i ∈ positions P l) → StronglySorted lt (f <$> L)) as H.
    { induction 1 as [|a k Hk IHk Ha]; intros Hin; [constructor|]. rewrite fmap_cons. constructor.
      - apply IHk. intros i Hi. apply Hin. by right.
      - apply Forall_fmap, Forall_forall. intros b Hb. rewrite Forall_forall in Ha. specialize (Ha b Hb).
        destruct (proj1 (elem_of_positions P l a) (Hin a ltac:(by left))) as (x & Hx & Hpx).
        destruct (proj1 (elem_of_positions P l b) (Hin b ltac:(by right))) as (y & Hy & Hpy). simpl. eauto. }
    apply H; [apply positions_increasing|done].
  - by apply (positions_perm f g).
Qed.
Lemma filter_renum {A B} (f : nat → nat) (g : A → B) (l : list A) (l' : list B) (P : A → Prop) (P' : B → Prop) `{∀ x, Decision (P x), ∀ x, Decision (P' x)} :
  (∀ i, l' !! f i = g <$> l !! i) → Inj (=) (=) f → (∀ t, ∃ u, f u = t) → (∀ x, x ∈ l → P' (g x) ↔ P x) →
  (∀ i k x y, l !! i = Some x → l !! k = Some y → i < k → P x → P y → f i < f k) →
  filter P' l' = g <$> filter P l.
Proof.
  intros Hf Hinj Hsurj HP Hord.
  assert (∀ C (Q : C → Prop) `{∀ x, Decision (Q x)} (L : list C), filter Q L = omap (λ i, L !! i) (positions (λ x, bool_decide (Q x)) L)) as Hfil.
  { intros C Q ? L. rewrite omap_positions. apply list_filter_iff. intros x. symmetry. apply bool_decide_eq_true. }
  rewrite (Hfil _ P'), (Hfil _ P). rewrite (positions_renum f g l l' (λ x, bool_decide (P x)) (λ x, bool_decide (P' x))).
  - generalize (positions (λ x, bool_decide (P x)) l). induction l0 as [|a L IH]; [done|]. rewrite fmap_cons. simpl. rewrite Hf.
    destruct (l !! a); simpl; [by f_equal|done].
  - done.
  - done.
  - done.
  - intros x Hx. apply bool_decide_ext. by apply HP.
  - intros i k x y Hx Hy Hik Hpx%bool_decide_eq_true Hpy%bool_decide_eq_true. eauto.
Qed.

Section renum.
  Context (σ π : nat → nat).
  Implicit Types (j : journal).

  Lemma rn_tlen j j' : renum σ π j j' → length (j_trns j') = length (j_trns j).
  Proof. intros []. eapply (perm_len σ); try done. intros i. by rewrite rn_trn0. Qed.
  Lemma rn_plen j j' : renum σ π j j' → length (j_posts j') = length (j_posts j).
  Proof. intros []. eapply (perm_len π); try done. intros i. by rewrite rn_post0, fmap_is_Some. Qed.

  (** Lookup. *)
  Definition verdict_alike (v v' : verdict) : Prop :=
    match v, v' with
    | VMerge i, VMerge k => k = π i
    | VNew, VNew | VAmbiguous _, VAmbiguous _ | VConflict, VConflict => True
    | _, _ => False
    end.
  Lemma fp_hits_perm j j' p : renum σ π j j' → fp_hits j' p ≡ₚ π <$> fp_hits j p.
  Proof. intros []. by apply (positions_perm π (renamed σ)). Qed.
  Lemma soft_hits_perm j j' d p : renum σ π j j' → soft_hits j' d p ≡ₚ π <$> soft_hits j d p.
  Proof. intros []. by apply (positions_perm π (renamed σ)). Qed.
  Lemma lookup_alike j j' d p : renum σ π j j' → verdict_alike (lookup_posting j d p) (lookup_posting j' d p).
  Proof.
    intros Hn. pose proof (fp_hits_perm j j' p Hn) as H1. pose proof (soft_hits_perm j j' d p Hn) as H2.
    unfold lookup_posting. destruct (fp_hits j p) as [|a [|b l]].
    - apply Permutation_nil_r in H1 as ->. destruct (soft_hits j d p) as [|a [|b l]].
      + by apply Permutation_nil_r in H2 as ->.
      + by apply Permutation_singleton_r in H2 as ->.
      + apply Permutation_length in H2. destruct (soft_hits j' d p) as [|a' [|b' l']]; done.
    - by apply Permutation_singleton_r in H1 as ->.
    - apply Permutation_length in H1. destruct (fp_hits j' p) as [|a' [|b' l']]; done.
  Qed.
  Lemma verdicts_alike j j' tp : renum σ π j j' → Forall2 verdict_alike (verdicts j tp) (verdicts j' tp).
  Proof.
    intros Hn. unfold verdicts. apply Forall2_fmap, Forall_Forall2_diag, Forall_forall. intros p _. by apply lookup_alike.
  Qed.
  Lemma left_out_alike j j' tp : renum σ π j j' → left_out j' tp = left_out j tp.
  Proof.
    intros Hn. unfold left_out. destruct (tp_posts tp) as [|p ps]; [done|].
    induction (verdicts_alike j j' tp Hn) as [|v v' l l' Hv H IH]; [done|]. simpl. rewrite IH. f_equal. by destruct v, v'.
  Qed.
  Lemma dests_alike j j' tp : renum σ π j j' → dests j' tp = π <$> dests j tp.
  Proof.
    intros Hn. unfold dests. induction (verdicts_alike j j' tp Hn) as [|v v' l l' Hv H IH]; [done|].
    destruct v, v'; try done; csimpl; rewrite IH; [|done..]. simpl in Hv. by subst.
  Qed.
  Lemma all_dests_alike j j' tps : renum σ π j j' → all_dests j' tps = π <$> all_dests j tps.
  Proof.
    intros Hn. unfold all_dests. induction tps as [|tp tps IH]; [done|]. rewrite !bind_cons, fmap_app, IH.
    f_equal. rewrite left_out_alike with (j := j) by done. destruct (left_out j tp); [done|]. by apply dests_alike.
  Qed.
  Lemma valid_alike j j' tps : renum σ π j j' → valid_set j tps ↔ valid_set j' tps.
  Proof.
    intros Hn. split; intros [H1 H2 H3 H4 H5]; split; try done.
    - intros tp p Htp Hp. rewrite (Permutation_length (fp_hits_perm j j' p Hn)), fmap_length. eauto.
    - intros tp i k x y Htp Hl Hi Hk Hx Hy. rewrite (left_out_alike j j') in Hl by done.
      rewrite (dests_alike j j') in Hi, Hk by done.
      apply elem_of_list_fmap in Hi as (i0 & -> & Hi). apply elem_of_list_fmap in Hk as (k0 & -> & Hk).
      rewrite (rn_post _ _ _ _ Hn) in Hx, Hy.
      destruct (j_posts j !! i0) as [x0|] eqn:Ex; [|done]. destruct (j_posts j !! k0) as [y0|] eqn:Ey; [|done].
      injection Hx as <-. injection Hy as <-. simpl. f_equal. eauto.
    - rewrite (all_dests_alike j j') by done. apply NoDup_fmap_2; [apply Hn|done].
    - intros tp p Htp Hp. specialize (H3 tp p Htp Hp). by rewrite (Permutation_length (fp_hits_perm j j' p Hn)), fmap_length in H3.
    - intros tp i k x y Htp Hl Hi Hk Hx Hy. apply (rn_sinj _ _ _ _ Hn).
      change (jp_trn (renamed σ x) = jp_trn (renamed σ y)).
      eapply (H4 tp (π i) (π k)); [done|by rewrite (left_out_alike j j')| | | |].
      + rewrite (dests_alike j j') by done. by apply elem_of_list_fmap_1.
      + rewrite (dests_alike j j') by done. by apply elem_of_list_fmap_1.
      + by rewrite (rn_post _ _ _ _ Hn), Hx.
      + by rewrite (rn_post _ _ _ _ Hn), Hy.
    - rewrite (all_dests_alike j j') in H5 by done. by apply NoDup_fmap_1 in H5.
  Qed.

  (** Applying. *)
  Lemma renum_alter j j' i f : renum σ π j j' →
    (∀ x, jp_trn (f x) = jp_trn x) → (∀ x, f (renamed σ x) = renamed σ (f x)) →
    renum σ π (Journal (j_trns j) (alter f i (j_posts j))) (Journal (j_trns j') (alter f (π i) (j_posts j'))).
  Proof.
    intros [] Ht Hf. split; cbn [j_trns j_posts]; try done.
    - intros k. destruct (decide (k = i)) as [->|Hk].
      + rewrite !list_lookup_alter, rn_post0. destruct (j_posts j !! i); [|done]. simpl. by rewrite Hf.
      + rewrite !list_lookup_alter_ne by (intros E; by simplify_eq). apply rn_post0.
    - intros k. rewrite alter_length. apply rn_pid0.
    - intros a b x y Ha Hb Hab Hxy.
      assert (∀ c z, alter f i (j_posts j) !! c = Some z → ∃ z', j_posts j !! c = Some z' ∧ jp_trn z' = jp_trn z) as Hl.
      { intros c z Hz. destruct (decide (c = i)) as [->|Hc].
        - rewrite list_lookup_alter in Hz. destruct (j_posts j !! i) as [z'|]; [|done]. simplify_eq/=. exists z'. by rewrite Ht.
        - rewrite list_lookup_alter_ne in Hz by done. eauto. }
      destruct (Hl _ _ Ha) as (x' & Hx' & Ex). destruct (Hl _ _ Hb) as (y' & Hy' & Ey).
      eapply rn_pord0; [exact Hx'|exact Hy'|done|congruence].
  Qed.
  Lemma snoc_renum {A} (f : nat → nat) (g : A → A) l l' (x : A) : (∀ i, l' !! f i = g <$> l !! i) → Inj (=) (=) f →
    (∀ i, length l ≤ i → f i = i) → length l' = length l →
    ∀ i, (l' ++ [g x]) !! f i = g <$> (l ++ [x]) !! i.
  Proof.
    intros Hf Hinj Hid Hlen i. destruct (decide (i < length l)) as [Hi|Hi].
    - rewrite (lookup_app_l l) by done.
      assert (is_Some (l' !! f i)) as Hs. { rewrite Hf. apply fmap_is_Some. by apply lookup_lt_is_Some. }
      apply lookup_lt_is_Some in Hs. by rewrite lookup_app_l.
    - rewrite Hid by lia. rewrite !lookup_app_r by lia. rewrite Hlen. destruct (i - length l) as [|n]; done.
  Qed.
  Lemma renum_add_post j j' t d p : renum σ π j j' →
    renum σ π (Journal (j_trns j) (j_posts j ++ [JP t d p])) (Journal (j_trns j') (j_posts j' ++ [JP (σ t) d p])).
  Proof.
    intros Hn. pose proof (rn_plen _ _ Hn) as Hlen. destruct Hn. split; cbn [j_trns j_posts]; try done.
    - by apply (snoc_renum π (renamed σ) _ _ (JP t d p)).
    - intros i Hi. rewrite app_length in Hi. simpl in Hi. apply rn_pid0. lia.
    - intros i k x y Hx Hy Hik Hxy. pose proof (lookup_lt_Some _ _ _ Hy) as Hk. rewrite app_length in Hk. simpl in Hk.
      rewrite lookup_app_l in Hx by lia.
      destruct (decide (k < length (j_posts j))) as [Hlt|Hge].
      + rewrite lookup_app_l in Hy by done. eauto.
      + assert (k = length (j_posts j)) as -> by lia. rewrite (rn_pid0 (length (j_posts j))) by lia.
        assert (is_Some (j_posts j' !! π i)) as Hs by (rewrite rn_post0, Hx; eauto). apply lookup_lt_is_Some in Hs. lia.
  Qed.
  Lemma renum_add_trn j j' h : renum σ π j j' →
    renum σ π (Journal (j_trns j ++ [h]) (j_posts j)) (Journal (j_trns j' ++ [h]) (j_posts j')).
  Proof.
    intros Hn. pose proof (rn_tlen _ _ Hn) as Hlen. destruct Hn. split; cbn [j_trns j_posts]; try done.
    - intros t. rewrite (snoc_renum σ id (j_trns j) (j_trns j') h); [by rewrite option_fmap_id| |done|done|done].
      intros i. by rewrite option_fmap_id.
    - intros i Hi. rewrite app_length in Hi. simpl in Hi. apply rn_sid0. lia.
    - intros i k x y Hx Hy Hik Hxy. pose proof (lookup_lt_Some _ _ _ Hy) as Hk. rewrite app_length in Hk. simpl in Hk.
      rewrite lookup_app_l in Hx by lia.
      destruct (decide (k < length (j_trns j))) as [Hlt|Hge].
      + rewrite lookup_app_l in Hy by done. eauto.
      + assert (k = length (j_trns j)) as -> by lia. rewrite (rn_sid0 (length (j_trns j))) by lia.
        assert (is_Some (j_trns j' !! σ i)) as Hs by (rewrite rn_trn0, Hx; eauto). apply lookup_lt_is_Some in Hs. lia.
  Qed.
  Lemma renum_postings t d vs vs' ps : Forall2 verdict_alike vs vs' → ∀ j j', renum σ π j j' →
    renum σ π (Journal (j_trns j) (foldl (apply_posting t d) (j_posts j) (zip ps vs)))
              (Journal (j_trns j') (foldl (apply_posting (σ t) d) (j_posts j') (zip ps vs'))).
  Proof.
    intros H. revert ps. induction H as [|v v' vs vs' Hv H IH]; intros ps j j' Hn.
    - destruct ps; by destruct j, j'.
    - destruct ps as [|p ps]; [by destruct j, j'|].
      cbn [zip zip_with foldl]. change (zip_with pair ps vs) with (zip ps vs). change (zip_with pair ps vs') with (zip ps vs').
      assert (renum σ π (Journal (j_trns j) (apply_posting t d (j_posts j) (p, v)))
                        (Journal (j_trns j') (apply_posting (σ t) d (j_posts j') (p, v')))) as H1.
      { unfold apply_posting. cbn [fst snd]. destruct v, v'; try done; [|by apply renum_add_post|by destruct j, j'..].
        simpl in Hv. subst. by apply renum_alter. }
      exact (IH ps _ _ H1).
  Qed.
  Lemma renum_apply j0 j0' j j' tp : renum σ π j0 j0' → renum σ π j j' →
    renum σ π (apply_trn j0 j tp) (apply_trn j0' j' tp).
  Proof.
    intros H0 Hn. unfold apply_trn. rewrite (left_out_alike j0 j0') by done. destruct (left_out j0 tp); [done|].
    assert (dests j0' tp ≫= (λ i, option_list (jp_trn <$> j_posts j0' !! i)) =
            σ <$> (dests j0 tp ≫= (λ i, option_list (jp_trn <$> j_posts j0 !! i)))) as ->.
    { rewrite (dests_alike j0 j0') by done. induction (dests j0 tp) as [|i l IH]; [done|].
      rewrite fmap_cons, !bind_cons, fmap_app, IH. f_equal. rewrite (rn_post _ _ _ _ H0). by destruct (j_posts j0 !! i). }
    destruct (dests j0 tp ≫= _) as [|t ts].
    - cbn [fmap list_fmap]. rewrite (rn_tlen _ _ Hn).
      rewrite <- (rn_sid _ _ _ _ Hn (length (j_trns j)) ltac:(lia)) at 2.
      apply (renum_postings (length (j_trns j)) (tp_date tp) _ _ (tp_posts tp) (verdicts_alike j0 j0' tp H0)
        (Journal (j_trns j ++ [tp_trn tp]) (j_posts j)) (Journal (j_trns j' ++ [tp_trn tp]) (j_posts j'))).
      pose proof (rn_tlen _ _ Hn) as Hlen. by apply renum_add_trn.
    - cbn [fmap list_fmap]. by apply renum_postings; [apply verdicts_alike|].
  Qed.
  Lemma renum_merge j j' tps : renum σ π j j' → renum σ π (spec_merge j tps) (spec_merge j' tps).
  Proof.
    intros Hn. unfold spec_merge.
    enough (∀ J J', renum σ π J J' → renum σ π (foldl (apply_trn j) J tps) (foldl (apply_trn j') J' tps)) as H by by apply H.
    induction tps as [|tp tps IH]; intros J J' HJ; [done|].
    simpl. apply IH. by apply renum_apply.
  Qed.
  Lemma renum_build j j' : renum σ π j j' →
    stable_sort (by_key tp_date) (journal_trns j') = stable_sort (by_key tp_date) (journal_trns j).
  Proof.
    intros Hn. apply stable_sort_unique.
    { apply (stable_sort_sorted (by_key tp_date)); [apply by_key_total|apply by_key_trans]. }
    intros d. rewrite stable_sort_filter.
    2:{ intros a b <- E. unfold by_key. rewrite E. apply date_leb_refl. }
    rewrite <- (list_fmap_id (filter _ (journal_trns j))).
    apply (filter_renum σ id); [|apply Hn|apply Hn|done|].
    - intros t. rewrite option_fmap_id. unfold journal_trns. rewrite !list_lookup_imap, (rn_trn _ _ _ _ Hn).
      destruct (j_trns j !! t) as [h|]; [|done]. simpl. do 2 f_equal.
      rewrite (filter_renum π (renamed σ) (j_posts j) (j_posts j') (λ x, jp_trn x = t) (λ x, jp_trn x = σ t)).
      + rewrite <- list_fmap_compose. done.
      + apply Hn.
      + apply Hn.
      + apply Hn.
      + intros x _. simpl. split; [apply Hn|by intros ->].
      + intros i k x y Hx Hy Hik <- E. eapply (rn_pord _ _ _ _ Hn); eauto.
    - intros i k x y Hx Hy Hik Ex Ey. unfold journal_trns in Hx, Hy. rewrite list_lookup_imap in Hx, Hy.
      destruct (j_trns j !! i) as [h|] eqn:E1; [|done]. destruct (j_trns j !! k) as [h'|] eqn:E2; [|done].
      simplify_eq/=. eapply (rn_sord _ _ _ _ Hn); [exact E1|exact E2|done|]. unfold tp_date in *. simpl in *. congruence.
  Qed.
  Lemma returned_alike j j' tp a b : renum σ π j j' → returned_as j tp a → returned_as j' tp b → equal_but_candidates a b.
  Proof.
    intros Hn [E1 H1] [E2 H2]. split; [congruence|].
    remember (tp_posts tp) as ps eqn:Eps. clear Eps E1 E2.
    revert H2. generalize (tp_posts b). induction H1 as [|p q ps qs Hq H1 IH]; intros rs H2; inversion_clear H2 as [|? r ? rs' Hr H2'].
    - constructor.
    - constructor; [|by apply IH]. cbv beta in Hq, Hr. pose proof (lookup_alike j j' (tp_date tp) p Hn) as Hl.
      destruct (lookup_posting j (tp_date tp) p) as [| |l|], (lookup_posting j' (tp_date tp) p) as [| |l'|]; try done;
        [by subst..| |by subst].
      destruct Hq as (Q1 & Q2 & Q3 & fs & _ & Qt), Hr as (R1 & R2 & R3 & gs & _ & Rt).
      split_and!; try congruence. intros t Ht. unfold has_tag. rewrite Qt, Rt.
      rewrite !elem_of_union, !elem_of_list_to_set, !elem_of_list_fmap.
      split; (intros [?|(f & -> & _)]; [by left|]); destruct Ht; by exists f.
  Qed.

  (** One call on both. *)
  Lemma renum_call m m' j j' ho ho' tps : hash_order_ok ho → hash_order_ok ho' →
    represents m j → represents m' j' → journal_wf j → journal_wf j' → renum σ π j j' →
    (∃ j1 j1', represents (merge ho m tps).1 j1 ∧ represents (merge ho' m' tps).1 j1' ∧ journal_wf j1 ∧ journal_wf j1' ∧ renum σ π j1 j1') ∧
    ((∃ un un', (merge ho m tps).2 = Ok un ∧ (merge ho' m' tps).2 = Ok un' ∧ Forall2 equal_but_candidates un un') ∨
     (∃ e e', (merge ho m tps).2 = Err e ∧ (merge ho' m' tps).2 = Err e')).
  Proof.
    intros Hho Hho' Hj Hj' Hwf Hwf' Hn. destruct (merge ho m tps) as [m1 r1] eqn:E1. destruct (merge ho' m' tps) as [m2 r2] eqn:E2.
    cbn [fst snd].
    destruct (merge_cases ho m j tps m1 _ Hho Hj Hwf E1) as [(V1 & W1 & R1 & un & -> & U1)|(V1 & -> & e & ->)];
      destruct (merge_cases ho' m' j' tps m2 _ Hho' Hj' Hwf' E2) as [(V2 & W2 & R2 & un' & -> & U2)|(V2 & -> & e' & ->)].
    - split; [exists (spec_merge j tps), (spec_merge j' tps); split_and!; try done; by apply renum_merge|].
      left. exists un, un'. split_and!; [done|done|].
      assert (filter (λ tp, left_out j' tp = true) tps = filter (λ tp, left_out j tp = true) tps) as Ef.
      { apply list_filter_iff. intros tp. by rewrite (left_out_alike j j'). }
      rewrite Ef in U2. clear -U1 U2 Hn. revert un' U2.
      induction U1 as [|tp a l k Ha H IH]; intros un' U2; inversion U2; subst; constructor; [by eapply returned_alike|auto].
    - by apply (valid_alike j j') in V1.
    - by apply (valid_alike j j') in V2.
    - split; [by eauto 10|]. right. eauto.
  Qed.
End renum.

(** Merging into an edited journal. *)
From Verif Require Import Base Types CommentModel MergeModel SpecBase BaseProofs MergeSpec MergeClaims
  MergeProofs MergePending MergeApply MergeBuild MergeClosed MergeLemmas MergePlaces MergeLaws MergeLaws2
  MergeLaws3 MergeLaws4 MergeReplay MergeLaws5 EditClaims.
From Coq Require Import Lia.
Local Open Scope nat_scope.

(** The position of a posting in [all_posts]. *)
Lemma all_posts_at (s : list transaction_postings) a b tp p : s !! a = Some tp → tp_posts tp !! b = Some p →
  all_posts s !! (length (all_posts (take a s)) + b) = Some p.
Proof.
  revert a. induction s as [|t s IH]; intros a Ha Hb; [done|].
  change (all_posts (t :: s)) with (tp_posts t ++ all_posts s).
  destruct a as [|a]; simplify_eq/=.
  - rewrite lookup_app_l; [done|by eapply lookup_lt_Some].
  - change (all_posts (t :: take a s)) with (tp_posts t ++ all_posts (take a s)). rewrite app_length.
    rewrite lookup_app_r by lia. rewrite <- (IH a) by done. f_equal. lia.
Qed.
Lemma offsets_inj (s : list transaction_postings) a b a' b' tp tp' p p' :
  s !! a = Some tp → tp_posts tp !! b = Some p → s !! a' = Some tp' → tp_posts tp' !! b' = Some p' →
  length (all_posts (take a s)) + b = length (all_posts (take a' s)) + b' → a = a' ∧ b = b'.
Proof.
  assert (∀ (s : list transaction_postings) a b a' tp p, s !! a = Some tp → tp_posts tp !! b = Some p → a < a' →
    length (all_posts (take a s)) + b < length (all_posts (take a' s))) as Hlt.
  { clear. induction s as [|t s IH]; intros a b a' tp p Ha Hb Hl; [done|]. destruct a' as [|a']; [lia|]. cbn [take].
    change (all_posts (t :: take a' s)) with (tp_posts t ++ all_posts (take a' s)). rewrite app_length.
    destruct a as [|a]; simplify_eq/=.
    - apply lookup_lt_Some in Hb. lia.
    - change (all_posts (t :: take a s)) with (tp_posts t ++ all_posts (take a s)). rewrite app_length.
      pose proof (IH a b a' tp p Ha Hb). lia. }
  intros Ha Hb Ha' Hb' E. destruct (lt_eq_lt_dec a a') as [[H|H]|H].
  - pose proof (Hlt s a b a' tp p Ha Hb H). lia.
  - subst a'. lia.
  - pose proof (Hlt s a' b' a tp' p' Ha' Hb' H). lia.
Qed.
(** Postings of a journal with distinct fingerprints that share one are at the same place. *)
Lemma same_place J a b a' b' tp tp' p p' : fps_distinct (all_posts J) → J !! a = Some tp → tp_posts tp !! b = Some p →
  J !! a' = Some tp' → tp_posts tp' !! b' = Some p' → share_fp p p' → a = a' ∧ b = b'.
Proof.
  intros Hd Ha Hb Ha' Hb' Hs. eapply offsets_inj; try done.
  eapply (Hd _ _ p p'); [by eapply all_posts_at..|done].
Qed.
Lemma share_sub p p' q : (∀ f, has_fp p f → has_fp p' f) → share_fp q p → share_fp q p'.
Proof. intros H (f & Hq & Hp). exists f. auto. Qed.
Lemma share_swap p q : share_fp p q → share_fp q p.
Proof. intros (f & H1 & H2). exists f. done. Qed.

(** A journal merged into a new merger. *)
Lemma journal_loaded ho J : hash_order_ok ho → journal_ok J →
  ∃ m j, merge ho merger_new J = (m, Ok []) ∧ reachable m ∧ represents m j ∧ journal_wf j ∧ journal_trns j = J.
Proof.
  intros Hho (H1 & H2 & H3). destruct (from_empty ho ho J Hho Hho H1 H2) as (m & Hm & _).
  assert (filter (λ tp, tp_posts tp = []) J = []) as E.
  { apply filter_none. exact H3. }
  rewrite E in Hm.
  destruct (merge_inv merger_new journal_new reach_new rep_new ho J m [] Hho Hm) as (Hv & Hwf & HJ & Hun).
  exists m, (spec_merge journal_new J). split; [done|]. split.
  { replace m with (merge ho merger_new J).1 by by rewrite Hm. constructor; [constructor|done]. }
  split; [done|]. split; [done|]. rewrite spec_merge_all_new.
  - simpl. by apply filter_all.
  - intros x Hx. by apply elem_of_nil in Hx.
  - done.
Qed.
(** Where a posting of the representation is in the journal. *)
Lemma trns_place j i x : journal_wf j → j_posts j !! i = Some x →
  ∃ tp, journal_trns j !! jp_trn x = Some tp ∧ tp_posts tp !! rank (j_posts j) i (jp_trn x) = Some (jp_post x).
Proof.
  intros Hwf Hx. assert (jp_trn x < length (j_trns j)) as [h Hh]%lookup_lt_is_Some by (apply Hwf; by eapply elem_of_list_lookup_2).
  unfold journal_trns. eexists. rewrite list_lookup_imap, Hh. split; [done|]. cbn [tp_posts].
  rewrite list_lookup_fmap, rank_lookup; done.
Qed.
Lemma trns_post j a b tp p : journal_trns j !! a = Some tp → tp_posts tp !! b = Some p →
  ∃ i x, j_posts j !! i = Some x ∧ jp_trn x = a ∧ jp_post x = p.
Proof.
  unfold journal_trns. rewrite list_lookup_imap. intros Ha Hb. destruct (j_trns j !! a) as [h|]; simplify_eq/=.
  rewrite list_lookup_fmap in Hb. destruct (filter _ _ !! b) as [x|] eqn:E; simplify_eq/=.
  apply elem_of_list_lookup_2, elem_of_list_filter in E as [Et [i Hi]%elem_of_list_lookup]. eauto.
Qed.

Lemma homes_edited ho m j out j0 J S :
  hash_order_ok ho → represents m j → journal_wf j → build ho m = Ok out →
  journal_wf j0 → journal_trns j0 = J → fps_distinct (all_posts J) → edited out J → homes (j_posts j) S → homes (j_posts j0) S.
Proof.
  intros Hho Hj Hwf Hb Hwf0 EJ HdJ (place & P1 & P2 & P3) Hh.
  destruct (built_place ho m j out Hho Hj Hwf Hb) as (f & Hf1 & Hf2).
  (* the home of a source posting in the edited journal *)
  assert (∀ s tp p, s ∈ S → tp ∈ s → p ∈ tp_posts tp → ∃ i x tpo tp' p', j_posts j !! i = Some x ∧ (∀ f, has_fp p f → has_fp (jp_post x) f) ∧
    out !! (f i).1 = Some tpo ∧ tp_posts tpo !! (f i).2 = Some (jp_post x) ∧
    J !! (place (f i).1 (f i).2).1 = Some tp' ∧ tp_posts tp' !! (place (f i).1 (f i).2).2 = Some p' ∧ ∀ f, has_fp p f → has_fp p' f) as Hhome.
  { intros s tp p Hs Htp Hp. destruct (hm_home _ _ Hh s tp p Hs Htp Hp) as (i & x & Hx & Hxf).
    destruct (Hf1 i x Hx) as (tpo & Ho & Hpo & _). destruct (P1 _ _ _ _ Ho Hpo) as (tp' & p' & H1 & H2 & H3).
    exists i, x, tpo, tp', p'. split_and!; auto. }
  (* a posting of the edited journal that shares with a source posting is its home *)
  assert (∀ s tp p y, s ∈ S → tp ∈ s → p ∈ tp_posts tp → y ∈ j_posts j0 → share_fp (jp_post y) p →
    ∃ i x tpo k, j_posts j !! i = Some x ∧ (∀ f, has_fp p f → has_fp (jp_post x) f) ∧
      out !! (f i).1 = Some tpo ∧ tp_posts tpo !! (f i).2 = Some (jp_post x) ∧ j_posts j0 !! k = Some y ∧
      jp_trn y = (place (f i).1 (f i).2).1 ∧ rank (j_posts j0) k (jp_trn y) = (place (f i).1 (f i).2).2) as Hat.
  { intros s tp p y Hs Htp Hp [k Hy]%elem_of_list_lookup Hsh.
    destruct (Hhome s tp p Hs Htp Hp) as (i & x & tpo & tp' & p' & H1 & H2 & H3 & H4 & H5 & H6 & H7).
    destruct (trns_place j0 k y Hwf0 Hy) as (tpy & Hty & Hpy). rewrite EJ in Hty.
    destruct (same_place J _ _ _ _ tpy tp' _ _ HdJ Hty Hpy H5 H6) as [E1 E2]; [by eapply share_sub|].
    exists i, x, tpo, k. done. }
  split.
  - intros s tp p Hs Htp Hp. destruct (Hhome s tp p Hs Htp Hp) as (i & x & tpo & tp' & p' & H1 & H2 & H3 & H4 & H5 & H6 & H7).
    rewrite <- EJ in H5. destruct (trns_post j0 _ _ tp' p' H5 H6) as (k & y & Hy & _ & <-). eauto.
  - intros s tp p q x y Hs Htp Hp Hq Hx Hy Hxp Hyq.
    destruct (Hat s tp p x Hs Htp Hp Hx Hxp) as (i & x0 & to & kx & A1 & A2 & A3 & A4 & A5 & A6 & _).
    destruct (Hat s tp q y Hs Htp Hq Hy Hyq) as (k & y0 & to' & ky & B1 & B2 & B3 & B4 & B5 & B6 & _).
    destruct (hm_ok _ _ Hh s Hs) as (Hm & _).
    assert (jp_trn x0 = jp_trn y0) as Et.
    { eapply (hm_group _ _ Hh s tp p q x0 y0); try done; [by eapply elem_of_list_lookup_2..| |].
      - apply share_self_super; [|done]. apply Hm, elem_of_list_bind. eauto.
      - apply share_self_super; [|done]. apply Hm, elem_of_list_bind. eauto. }
    apply (Hf2 i k x0 y0 A1 B1) in Et. rewrite A6, B6. rewrite Et in *. simplify_eq. by eapply P2.
  - intros s u v p q x Hs Hu Hv Hx Hxp Hxq.
    destruct (all_posts_lookup s u p Hu) as (au & bu & tpu & Hau & Hbu & _).
    destruct (all_posts_lookup s v q Hv) as (av & bv & tpv & Hav & Hbv & _).
    destruct (Hat s tpu p x) as (i & x0 & to & kx & A1 & A2 & A3 & A4 & A5 & A6 & A7); try done; [by eapply elem_of_list_lookup_2..|].
    destruct (Hat s tpv q x) as (k & y0 & to' & ky & B1 & B2 & B3 & B4 & B5 & B6 & B7); try done; [by eapply elem_of_list_lookup_2..|].
    destruct (hm_ok _ _ Hh s Hs) as (Hm & _).
    assert (kx = ky) as ->.
    { eapply (wf_same j0 kx ky x x Hwf0); try done. destruct (jw_mergeable _ Hwf0 x Hx) as [[g Hg] _]. by exists g. }
    assert (i = k) as ->.
    { apply (Hf2 i k x0 y0 A1 B1). destruct (P3 _ _ _ _ _ _ _ _ A3 A4 B3 B4) as [E1 E2].
      - rewrite A7 in *. rewrite (surjective_pairing (place (f i).1 (f i).2)), (surjective_pairing (place (f k).1 (f k).2)). congruence.
      - destruct (f i), (f k). simpl in *. by subst. }
    rewrite A1 in B1. simplify_eq.
    eapply (hm_one _ _ Hh s u v p q y0); try done; [by eapply elem_of_list_lookup_2| |].
    + apply share_self_super; [|done]. apply Hm. by eapply elem_of_list_lookup_2.
    + apply share_self_super; [|done]. apply Hm. by eapply elem_of_list_lookup_2.
  - apply (hm_ok _ _ Hh).
Qed.

Lemma Forall2_fmap_refines (g : posting_internal → posting_internal) l : (∀ p, post_refines p (g p)) → Forall2 post_refines l (g <$> l).
Proof. intros H. induction l; constructor; auto. Qed.
Lemma journal_trns_fmap ts (ps : list jpost) (g : posting_internal → posting_internal) :
  journal_trns (Journal ts ((λ x, JP (jp_trn x) (jp_date x) (g (jp_post x))) <$> ps)) =
  (λ tp, TP (tp_trn tp) (g <$> tp_posts tp)) <$> journal_trns (Journal ts ps).
Proof.
  unfold journal_trns. cbn [j_trns j_posts]. rewrite fmap_imap. apply imap_ext. intros i h Hh. unfold compose. cbn [tp_trn tp_posts]. f_equal.
  clear. induction ps as [|x ps IH]; [done|]. rewrite fmap_cons, !filter_cons. cbn [jp_trn].
  destruct (decide (jp_trn x = i)); [rewrite !fmap_cons; f_equal|]; exact IH.
Qed.

(** C84 *)
Lemma replay_edited runs m ho out J : clean_run merger_new runs m → hash_order_ok ho → build ho m = Ok out →
  journal_ok J → edited out J → ∀ hos, length hos = S (length runs) → Forall hash_order_ok hos →
  ∃ m' out', clean_run merger_new (zip hos (J :: runs.*2)) m' ∧ (∀ ho', hash_order_ok ho' → build ho' m' = Ok out') ∧
    Forall2 trn_refines (stable_sort (by_key tp_date) J) out'.
Proof.
  intros Hrun Hho Hb HJ He hos Hlen Hhos.
  destruct (run_logged merger_new runs m journal_new [] Hrun reach_new rep_new) as (j & Hr & Hj & Hh & _).
  { apply homes_nil. } { intros x Hx. by apply elem_of_nil in Hx. }
  simpl in Hh. pose proof (reachable_wf m j Hr Hj) as Hwf.
  destruct hos as [|ho1 hos]; [done|]. apply Forall_cons in Hhos as [Hho1 Hhos].
  destruct (journal_loaded ho1 J Hho1 HJ) as (m1 & j0 & Hm1 & Hr1 & Hj0 & Hwf0 & EJ).
  pose proof (homes_edited ho m j out j0 J _ Hho Hj Hwf Hb Hwf0 EJ (proj1 (proj2 HJ)) He Hh) as Hh0.
  destruct (replay_run j0 m1 (zip hos runs.*2) runs.*2) as (m' & Hrun' & Hr' & Hj').
  - intros h s Hin. split.
    + apply elem_of_zip_l in Hin. by eapply Forall_forall in Hhos.
    + by apply elem_of_zip_r in Hin.
  - done.
  - done.
  - done.
  - eexists m', _. split; [by econstructor|]. split.
    + intros ho' Hho'. apply (build_refines ho' Hho' m' _ Hj').
    + set (g := λ p, foldl merge_posting p (sharing p (all_posts (mjoin (zip hos runs.*2).*2)))).
      match goal with |- context [journal_trns (Journal ?ts ?ps)] =>
        change (Journal ts ps) with (Journal ts ((λ x, JP (jp_trn x) (jp_date x) (g (jp_post x))) <$> j_posts j0)) end.
      rewrite (journal_trns_fmap _ _ g). replace (Journal (j_trns j0) (j_posts j0)) with j0 by by destruct j0.
      rewrite EJ. apply Forall2_sort.
      * intros a b c d [Ea _] [Ec _]. unfold by_key, tp_date. by rewrite Ea, Ec.
      * clear. induction J as [|t J IH]; constructor; [|exact IH]. split; [done|].
        apply Forall2_fmap_refines. intros p. apply foldl_refines.
Qed.

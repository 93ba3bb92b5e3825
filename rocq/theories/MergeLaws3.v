(** Proofs of the claims about merging, concluded. *)
From Verif Require Import Base Types CommentModel MergeModel SpecBase BaseProofs MergeSpec MergeClaims
  MergeProofs MergePending MergeApply MergeBuild MergeClosed MergeLemmas MergePlaces MergeLaws MergeLaws2.
From Coq Require Import Lia QArith.
Local Open Scope nat_scope.

Global Instance verdict_eq_dec : EqDecision verdict. Proof. solve_decision. Defined.

Lemma NoDup_bind_pos {A B} (f : A → list B) l : ∀ a a' x y z,
  NoDup (l ≫= f) → l !! a = Some x → l !! a' = Some y → z ∈ f x → z ∈ f y → a = a'.
Proof.
  induction l as [|x0 l IH]; intros a a' x y z Hnd Hx Hy Hzx Hzy; [done|].
  rewrite bind_cons in Hnd. apply NoDup_app in Hnd as (N1 & N2 & N3).
  destruct a as [|a], a' as [|a']; simplify_eq/=; [done|..].
  - exfalso. eapply N2; [done|]. apply elem_of_list_bind. exists y. split; [done|by eapply elem_of_list_lookup_2].
  - exfalso. eapply N2; [done|]. apply elem_of_list_bind. exists x. split; [done|by eapply elem_of_list_lookup_2].
  - f_equal. by eapply IH.
Qed.
Lemma NoDup_bind_elem {A B} (f : A → list B) l : ∀ a x, NoDup (l ≫= f) → l !! a = Some x → NoDup (f x).
Proof.
  induction l as [|x0 l IH]; intros a x Hnd Hx; [done|].
  rewrite bind_cons in Hnd. apply NoDup_app in Hnd as (N1 & N2 & N3).
  destruct a as [|a]; simplify_eq/=; [done|]. by eapply IH.
Qed.

Lemma becomes_new_fresh j tp : becomes_new j tp ↔ left_out j tp = false ∧ dests j tp = [] ∧
  (∀ p, p ∈ tp_posts tp → lookup_posting j (tp_date tp) p = VNew).
Proof.
  rewrite <- to_merge_spec. split.
  - intros [Hne H].
    assert (∀ p, p ∈ tp_posts tp → lookup_posting j (tp_date tp) p = VNew) as H'.
    { intros p Hp. by apply matches_nothing_spec, H. }
    split_and!; [|..|done].
    + split; [done|]. intros p Hp Ha%ambiguous_is. by rewrite H' in Ha.
    + unfold dests, verdicts. clear -H'. induction (tp_posts tp) as [|p ps IH]; csimpl; [done|].
      rewrite H' by left. apply IH. intros; apply H'. by right.
  - intros ([Hne _] & _ & H). split; [done|]. intros p Hp. by apply matches_nothing_spec, H.
Qed.

Lemma foldl_refines L x : post_refines x (foldl merge_posting x L).
Proof.
  revert x. induction L as [|p L IH]; intros x; simpl; [apply post_refines_refl|].
  eapply post_refines_trans; [apply merge_posting_refines|apply IH].
Qed.

(** The transactions present before a merge, as they are after it. *)
Lemma journal_trns_split j tps : journal_wf j → valid_set j tps →
  ∃ old new, journal_trns (spec_merge j tps) = old ++ new ∧
    tp_trn <$> new = new_trns j tps ∧
    Forall2 (λ a b, tp_trn b = tp_trn a ∧ ∃ ps extra, tp_posts b = ps ++ extra ∧
      Forall2 post_refines (tp_posts a) ps ∧ ∀ p, p ∈ extra → newly_added j tps p) (journal_trns j) old.
Proof.
  intros Hwf Hv. rewrite spec_merge_closed. unfold journal_trns. cbn [j_trns j_posts].
  rewrite imap_app. eexists _, _. split_and!; [done|..].
  - rewrite fmap_imap. apply list_eq. intros i. rewrite list_lookup_imap. by destruct (new_trns j tps !! i).
  - apply Forall2_same_length_lookup. split; [by rewrite !imap_length|].
    intros t a b Ha Hb. rewrite list_lookup_imap in Ha, Hb.
    destruct (j_trns j !! t) as [h|]; simplify_eq/=. split; [done|].
    rewrite filter_app, fmap_app. eexists _, _. split_and!; [done|..].
    + generalize (merged_into j tps) as L. generalize (j_posts j) as ps. clear.
      intros ps. induction ps as [|x ps IH]; intros L; [constructor|].
      change (imap (absorb L) (x :: ps)) with (absorb L 0 x :: imap (absorb (L ∘ S)) ps).
      destruct (decide (jp_trn x = t)) as [E|E].
      * rewrite !filter_cons_True by done. constructor; [apply foldl_refines|apply IH].
      * rewrite !filter_cons_False by done. apply IH.
    + intros p (x & -> & Hx)%elem_of_list_fmap. apply elem_of_list_filter in Hx as [_ Hx].
      apply elem_of_new_posts in Hx as (tp & ? & ? & ? & ? & _).
      exists tp. rewrite to_merge_spec, matches_nothing_spec. done.
Qed.

Lemma posts_value_app c l k : (posts_value c (l ++ k) == posts_value c l + posts_value c k)%Q.
Proof.
  induction l as [|p l IH]; simpl; [by rewrite Qplus_0_l|]. unfold posts_value in *. simpl.
  rewrite IH. apply Qplus_assoc.
Qed.
Lemma posts_value_refines c l k : Forall2 post_refines l k → posts_value c l = posts_value c k.
Proof.
  unfold posts_value. induction 1 as [|p q l k H _ IH]; simpl; [done|]. rewrite IH. f_equal.
  unfold post_value. by rewrite (pr_amount _ _ H).
Qed.

Section laws.
  Context (m : merger) (j : journal) (Hr : reachable m) (Hj : represents m j).
  Let Hwf : journal_wf j := reachable_wf m j Hr Hj.

  (** C05 *)
  Lemma nothing_lost ho ho1 ho2 tps m' un out out' :
    hash_order_ok ho → hash_order_ok ho1 → hash_order_ok ho2 →
    merge ho m tps = (m', Ok un) → build ho1 m = Ok out → build ho2 m' = Ok out' →
    ∃ (lo : transaction_postings → bool) (loc : nat → nat → nat * nat)
      (nothing : transaction_postings → posting_internal → bool),
      (∀ tp, lo tp = true ↔ ¬ to_merge j tp) ∧
      (∀ tp p, nothing tp p = true ↔ matches_nothing j (tp_date tp) p) ∧
      Forall2 returned_unmerged (filter (λ tp, lo tp = true) tps) un ∧
      (∀ a b tp p, tps !! a = Some tp → lo tp = false → tp_posts tp !! b = Some p →
         ∃ tp' q, out' !! (loc a b).1 = Some tp' ∧ tp_posts tp' !! (loc a b).2 = Some q ∧
           contains_source q p ∧ (nothing tp p = true → q = p)) ∧
      (∀ a b a' b' tp tp' p p',
         tps !! a = Some tp → lo tp = false → tp_posts tp !! b = Some p →
         tps !! a' = Some tp' → lo tp' = false → tp_posts tp' !! b' = Some p' →
         (a = a' → (loc a b).1 = (loc a' b').1) ∧ (loc a b = loc a' b' → a = a' ∧ b = b')) ∧
      length (all_posts out') = length (all_posts out) +
        length (filter (λ tp, lo tp = false) tps ≫= λ tp, filter (λ p, nothing tp p = true) (tp_posts tp)).
  Proof.
    intros Hho Hho1 Hho2 Hm Hb Hb'.
    destruct (merge_inv m j Hr Hj ho tps m' un Hho Hm) as (Hv & Hwf' & Hj' & Hun).
    destruct (built_place ho2 m' _ out' Hho2 Hj' Hwf' Hb') as (f & Hf1 & Hf2).
    set (pl := the_places j tps).
    set (g := λ a b, default 0 (pl !! a ≫= λ '(_, ls), ls !! b)).
    assert (∀ a b tp p, tps !! a = Some tp → left_out j tp = false → tp_posts tp !! b = Some p →
      ∃ t, fst <$> pl !! a = Some t ∧ placed j tps tp p t (g a b) ∧
           ∃ ls, pl !! a = Some (t, ls) ∧ ls !! b = Some (g a b)) as Hg.
    { intros a b tp p Ha El Hp.
      assert (a < length pl) as Hlt.
      { unfold pl, the_places. rewrite places_length. by eapply lookup_lt_Some. }
      apply lookup_lt_is_Some in Hlt as [[t ls] Epl]. exists t. unfold g. rewrite Epl. simpl.
      destruct (place_of j tps Hwf Hv a tp t ls Ha El Epl) as [Hlen H].
      assert (b < length ls) as Hlt by (rewrite Hlen; by eapply lookup_lt_Some).
      apply lookup_lt_is_Some in Hlt as [i Ei]. rewrite Ei. simpl. split_and!; [done|by eapply H|].
      exists ls. by rewrite Ei. }
    exists (left_out j), (λ a b, f (g a b)), (λ tp p, bool_decide (lookup_posting j (tp_date tp) p = VNew)).
    split_and!.
    - intros tp. apply lo_of_spec.
    - intros tp p. by rewrite bool_decide_eq_true, matches_nothing_spec.
    - eapply Forall2_impl; [exact Hun|]. intros. by eapply returned_as_unmerged.
    - intros a b tp p Ha El Hp. destruct (Hg a b tp p Ha El Hp) as (t & _ & [Hpl] & _).
      destruct Hpl as [(x & Hx & E & Ht & Hm1 & Hn)|(Hlen & E & Hn)].
      + destruct (Hf1 _ _ Hn) as (tp' & H1 & H2 & _). exists tp', (merge_posting (jp_post x) p).
        split_and!; [done|done|apply merge_posting_contains|]. rewrite bool_decide_eq_true. intros ?; congruence.
      + destruct (Hf1 _ _ Hn) as (tp' & H1 & H2 & _). exists tp', p. split_and!; [done|done|apply contains_source_refl|done].
    - intros a b a' b' tp tp' p p' Ha El Hp Ha' El' Hp'.
      destruct (Hg a b tp p Ha El Hp) as (t & Et & [Hpl] & ls & Hls & Hi).
      destruct (Hg a' b' tp' p' Ha' El' Hp') as (t' & Et' & [Hpl'] & ls' & Hls' & Hi').
      assert (∃ x, j_posts (spec_merge j tps) !! g a b = Some x ∧ jp_trn x = t) as (x & Hx & Hxt).
      { destruct Hpl as [(x & _ & _ & _ & _ & ?)|(_ & _ & ?)]; eauto. }
      assert (∃ x, j_posts (spec_merge j tps) !! g a' b' = Some x ∧ jp_trn x = t') as (x' & Hx' & Hxt').
      { destruct Hpl' as [(y & _ & _ & _ & _ & ?)|(_ & _ & ?)]; eauto. }
      destruct (Hf2 _ _ _ _ Hx Hx') as [F1 F2]. split.
      + intros ->. apply F1. congruence.
      + intros E%F2. rewrite E in Hi.
        assert (a = a') as <-.
        { pose proof (NoDup_places j tps Hwf Hv) as Hnd. fold pl in Hnd.
          assert (g a' b' ∈ ls) as M1 by by eapply elem_of_list_lookup_2.
          assert (g a' b' ∈ ls') as M2 by by eapply elem_of_list_lookup_2.
          by apply (NoDup_bind_pos snd pl a a' (t, ls) (t', ls') (g a' b')). }
        split; [done|]. assert (ls' = ls) as -> by congruence.
        assert (NoDup ls) as Hndl.
        { pose proof (NoDup_places j tps Hwf Hv) as Hnd. fold pl in Hnd. by apply (NoDup_bind_elem snd pl a (t, ls)). }
        by eapply NoDup_lookup.
    - rewrite (Permutation_length (built_posts_perm ho1 m j out Hho1 Hj Hwf Hb)).
      rewrite (Permutation_length (built_posts_perm ho2 m' _ out' Hho2 Hj' Hwf' Hb')).
      rewrite spec_merge_closed. cbn [j_posts]. rewrite !fmap_length, app_length, imap_length. f_equal.
      clear. generalize (length (j_trns j)). induction tps as [|tp tps IH]; intros n; [done|].
      cbn [new_posts]. rewrite app_length, IH. destruct (left_out j tp) eqn:El.
      + rewrite filter_cons_False by by rewrite El. unfold new_of, todo_of. by rewrite El.
      + rewrite filter_cons_True by done. rewrite bind_cons, app_length. f_equal.
        unfold new_of, todo_of, verdicts. rewrite El, fmap_length. clear El. generalize (tp_date tp). intros d. clear.
        induction (tp_posts tp) as [|p ps IH]; [done|]. rewrite fmap_cons. cbn [zip_with]. unfold news_from. csimpl.
        destruct (lookup_posting j d p) eqn:E.
        all: try (rewrite filter_cons_False by (rewrite bool_decide_eq_true; congruence); exact IH).
        rewrite filter_cons_True by (by rewrite bool_decide_eq_true). simpl. f_equal. exact IH.
  Qed.

  (** C06 *)
  Lemma remerge_same ho ho' tps m' : hash_order_ok ho → hash_order_ok ho' →
    merge ho m tps = (m', Ok []) → merge ho' m' tps = (m', Ok []).
  Proof.
    intros Hho Hho' Hm.
    destruct (merge_inv m j Hr Hj ho tps m' [] Hho Hm) as (Hv & Hwf' & Hj' & Hun).
    apply Forall2_nil_inv_r in Hun. set (j' := spec_merge j tps) in *.
    assert (∀ tp, tp ∈ tps → left_out j tp = false) as El.
    { intros tp Htp. destruct (left_out j tp) eqn:E; [|done].
      assert (tp ∈ filter (λ tp, left_out j tp = true) tps) as H by by apply elem_of_list_filter.
      rewrite Hun in H. by apply elem_of_nil in H. }
    set (pl := the_places j tps).
    assert (∀ a tp, tps !! a = Some tp → ∃ t ls, pl !! a = Some (t, ls) ∧
      length ls = length (tp_posts tp) ∧ ∀ b p, tp_posts tp !! b = Some p → ∃ i, ls !! b = Some i ∧
        placed j tps tp p t i ∧ lookup_posting j' (tp_date tp) p = VMerge i ∧ fp_hits j' p = [i] ∧
        ∃ x, j_posts j' !! i = Some x ∧ jp_trn x = t ∧ merge_posting (jp_post x) p = jp_post x) as Hg.
    { intros a tp Ha.
      assert (a < length pl) as Hlt.
      { unfold pl, the_places. rewrite places_length. by eapply lookup_lt_Some. }
      apply lookup_lt_is_Some in Hlt as [[t ls] Epl]. exists t, ls.
      assert (tp ∈ tps) as Htp by by eapply elem_of_list_lookup_2.
      destruct (place_of j tps Hwf Hv a tp t ls Ha (El _ Htp) Epl) as [Hlen H].
      split_and!; [done|done|]. intros b p Hp.
      assert (b < length ls) as Hlt by (rewrite Hlen; by eapply lookup_lt_Some).
      apply lookup_lt_is_Some in Hlt as [i Ei]. exists i. split; [done|].
      pose proof (H b p i Hp Ei) as Hpl. split; [done|].
      assert (∃ x, j_posts j' !! i = Some x ∧ jp_trn x = t ∧ merge_posting (jp_post x) p = jp_post x ∧
              contains_source (jp_post x) p) as (x & Hx & Hxt & Hxm & Hxc).
      { destruct Hpl as [[(x & ? & _ & _ & _ & ?)|(_ & _ & ?)]]; eexists; (split_and!; [done|done|..]); simpl.
        - apply merge_posting_idem.
        - apply merge_posting_contains.
        - apply merge_posting_self.
        - apply contains_source_refl. }
      assert (fp_hits j' p = [i]) as Eh.
      { apply NoDup_single; [apply NoDup_positions|].
        assert (p ∈ all_posts tps) as Hin.
        { apply elem_of_list_bind. exists tp. split; [by eapply elem_of_list_lookup_2|done]. }
        destruct (vs_mergeable _ _ Hv p Hin) as [[fp [Hfp Htag]] _].
        assert (share_fp (jp_post x) p) as Hs.
        { exists fp. split; [|done]. split; [done|]. apply Hxc; [done|]. intros ->. by apply unknown_not_fp. }
        split; [apply elem_of_fp_hits; eauto|].
        intros k (y & Hy & (fp' & [Hfp1 Hy1] & [_ Hp1]))%elem_of_fp_hits.
        apply (jw_distinct _ Hwf' k i (jp_post y) (jp_post x)).
        - by rewrite list_lookup_fmap, Hy.
        - by rewrite list_lookup_fmap, Hx.
        - exists fp'. split; [done|]. split; [done|]. apply Hxc; [done|]. intros ->. by apply unknown_not_fp. }
      split_and!; [|done|eauto]. unfold lookup_posting. by rewrite Eh. }
    assert (∀ tp, tp ∈ tps → left_out j' tp = false) as El'.
    { intros tp Htp. apply to_merge_spec. pose proof (El tp Htp) as E. apply to_merge_spec in E as [Hne _].
      split; [done|]. intros p Hp Ha%ambiguous_is.
      apply elem_of_list_lookup in Htp as [a Ha']. apply elem_of_list_lookup in Hp as [b Hb].
      destruct (Hg a tp Ha') as (t & ls & _ & _ & H). destruct (H b p Hb) as (i & _ & _ & E & _). by rewrite E in Ha. }
    assert (∀ a tp, tps !! a = Some tp → ∃ t ls, pl !! a = Some (t, ls) ∧ dests j' tp = ls) as Hd.
    { intros a tp Ha. destruct (Hg a tp Ha) as (t & ls & Hpl & Hlen & H). exists t, ls. split; [done|].
      unfold dests, verdicts. clear -Hlen H. revert ls Hlen H. generalize (tp_posts tp). intros ps.
      induction ps as [|p ps IH]; intros ls Hlen H.
      - by destruct ls.
      - destruct ls as [|i ls]; [done|]. csimpl. destruct (H 0 p eq_refl) as (i' & [= <-] & _ & -> & _).
        f_equal. apply IH; [simpl in Hlen; lia|]. intros b q Hq. apply (H (S b) q Hq). }
    assert (all_dests j' tps = pl ≫= snd) as Ead.
    { unfold all_dests. clear -Hd El'. assert (length pl = length tps) as Hlen by apply places_length.
      clearbody j' pl. revert pl Hlen Hd El'. induction tps as [|tp tps IH]; intros l Hlen Hd El'.
      - by destruct l.
      - destruct l as [|[t ls] l]; [done|]. rewrite !bind_cons. rewrite El' by left.
        destruct (Hd 0 tp eq_refl) as (t' & ls' & [= -> ->] & ->). f_equal.
        apply IH; [simpl in Hlen; lia| |intros; apply El'; by right].
        intros a tp' Ha. apply (Hd (S a) tp' Ha). }
    assert (valid_set j' tps) as Hv'.
    { split.
      - apply Hv.
      - apply Hv.
      - intros tp p [a Ha]%elem_of_list_lookup [b Hb]%elem_of_list_lookup.
        destruct (Hg a tp Ha) as (t & ls & _ & _ & H). destruct (H b p Hb) as (i & _ & _ & _ & -> & _). done.
      - intros tp i k x y [a Ha]%elem_of_list_lookup _ Hi Hk Hx Hy.
        destruct (Hd a tp Ha) as (t & ls & Hpl & Edest). rewrite Edest in Hi, Hk.
        destruct (Hg a tp Ha) as (t' & ls' & Hpl' & Hlen & H). rewrite Hpl in Hpl'. simplify_eq.
        assert (∀ i x, i ∈ dests j' tp → j_posts j' !! i = Some x → jp_trn x = t') as Ht.
        { intros i' x' [b Hb]%elem_of_list_lookup Hx'.
          assert (b < length (tp_posts tp)) as Hlt by (rewrite <- Hlen; by eapply lookup_lt_Some).
          apply lookup_lt_is_Some in Hlt as [p Hp]. destruct (H b p Hp) as (i1 & Hi1 & _ & _ & _ & x1 & Hx1 & ? & _).
          congruence. }
        rewrite (Ht i x), (Ht k y); done.
      - rewrite Ead. apply (NoDup_places j tps Hwf Hv). }
    assert (spec_merge j' tps = j') as Efix.
    { rewrite (spec_merge_closed j' tps).
      assert (∀ tp, tp ∈ tps → dests j' tp ≠ [] ∧ news_from (todo_of j' tp) = []) as Hnn.
      { intros tp Htp. pose proof Htp as [a Ha]%elem_of_list_lookup.
        destruct (Hg a tp Ha) as (t & ls & Hpl & Hlen & H). destruct (Hd a tp Ha) as (t' & ls' & Hpl' & ->). split.
        - rewrite Hpl in Hpl'. simplify_eq. intros ->. pose proof (El tp Htp) as E. apply to_merge_spec in E as [Hne _].
          apply Hne. by destruct (tp_posts tp).
        - apply elem_of_nil_inv. intros p Hin. unfold news_from in Hin.
          apply elem_of_list_omap in Hin as ([q v] & Hin & E). apply elem_of_todo in Hin as (_ & [b Hb]%elem_of_list_lookup & ->).
          destruct (H b q Hb) as (i & _ & _ & Ev & _). simpl in E. by rewrite Ev in E. }
      assert (new_trns j' tps = []) as ->.
      { unfold new_trns. clear -Hnn. clearbody j'. induction tps as [|tp tps IH]; [done|].
        rewrite filter_cons_False; [apply IH; intros; apply Hnn; by right|].
        unfold fresh. destruct (Hnn tp) as [H _]; [left|]. rewrite bool_decide_eq_false_2 by done.
        by rewrite andb_false_r. }
      assert (∀ n, new_posts j' n tps = []) as ->.
      { clear -Hnn. clearbody j'. induction tps as [|tp tps IH]; intros n; [done|]. cbn [new_posts]. unfold new_of.
        destruct (Hnn tp) as [_ ->]; [left|]. apply IH. intros; apply Hnn; by right. }
      rewrite !app_nil_r.
      assert (imap (absorb (merged_into j' tps)) (j_posts j') = j_posts j') as ->.
      2:{ by destruct j'. }
      apply list_eq. intros i. rewrite list_lookup_imap. destruct (j_posts j' !! i) as [x|] eqn:Hx; [|done].
      simpl. f_equal. unfold absorb.
      destruct (merged_into j' tps i) as [|p l] eqn:Em; [by destruct x|].
      assert (p ∈ merged_into j' tps i) as Hp by (rewrite Em; left).
      rewrite (merged_into_one j' tps Hv' i p Hp) in Em. simplify_eq. simpl.
      apply elem_of_merged_into in Hp as (tp & [a Ha]%elem_of_list_lookup & _ & [b Hb]%elem_of_list_lookup & E).
      destruct (Hg a tp Ha) as (t & ls & _ & _ & H). destruct (H b p Hb) as (i' & _ & _ & E' & _ & x' & Hx' & _ & Hmp).
      assert (i' = i) as -> by congruence. assert (x' = x) as -> by congruence. rewrite Hmp. by destruct x. }
    destruct (merge_accepts ho' Hho' m' j' tps Hj' Hwf' Hv') as (_ & m'' & un'' & E & Hj'' & Hun'').
    rewrite Efix in Hj''. rewrite (represents_merger m'' m' j' Hj'' Hj') in E. rewrite E. do 2 f_equal.
    replace (filter (λ tp, left_out j' tp = true) tps) with (@nil transaction_postings) in Hun''.
    - by apply Forall2_nil_inv_l in Hun''.
    - symmetry. apply elem_of_nil_inv. intros tp [E1 Htp]%elem_of_list_filter. by rewrite (El' tp Htp) in E1.
  Qed.
End laws.

(** Merging the same inputs in another order (C105). *)
From Verif Require Import Base Types CommentModel MergeModel SpecBase BaseProofs MergeSpec MergeClaims
  MergeProofs MergePending MergeApply MergeBuild MergeClosed MergeLemmas MergePlaces MergeLaws MergeLaws2 MergeLaws3 MergeLaws4 MergeReplay
  PropsMergeProofs MergeEdit HistoryClaims History HistoryStep.
From Coq Require Import Lia.
Local Open Scope nat_scope.

Lemma rtc_sym {A} (R : relation A) : (∀ x y, R x y → R y x) → ∀ x y, rtc R x y → rtc R y x.
Proof. intros HR x y H. induction H as [x|x y z Hxy _ IH]; [done|]. eapply rtc_r; [exact IH|]. auto. Qed.

Lemma soft_merge x p q : soft_match (merge_posting x p) q → soft_match x q.
Proof.
  intros (H1 & H2 & H3). pose proof (merge_posting_refines x p) as Hr. split_and!.
  - replace (p_amount (pi_raw x)) with (p_amount (pi_raw (merge_posting x p))); [done|]. apply Hr.
  - intros a b Ha Hb. apply H2; [|done]. rewrite merge_posting_balance. by rewrite Ha.
  - intros Hx Hq. rewrite <- H3; [|  |done].
    + rewrite merge_posting_account. by rewrite bool_decide_eq_false_2.
    + unfold unknown_account, has_tag. rewrite merge_posting_tags, decide_True by done. by intros [? _].
Qed.

Section order.
  Context (U : list (list transaction_postings)).
  Definition linked (p q : posting_internal) : Prop := p ∈ all_posts (mjoin U) ∧ q ∈ all_posts (mjoin U) ∧ share_fp p q.
  Definition tied (p q : posting_internal) : Prop :=
    linked p q ∨ ∃ s tp, s ∈ U ∧ tp ∈ s ∧ p ∈ tp_posts tp ∧ q ∈ tp_posts tp.
  Lemma linked_sym p q : linked p q → linked q p.
  Proof. intros (? & ? & ?). split_and!; [done..|by apply share_swap]. Qed.
  Lemma tied_sym p q : tied p q → tied q p.
  Proof. intros [?%linked_sym|(s & tp & ? & ? & ? & ?)]; [by left|right]. by exists s, tp. Qed.
  Lemma linked_tied p q : rtc linked p q → rtc tied p q.
  Proof. apply rtc_subrel. intros ? ? ?. by left. Qed.

  Record chained (ps : list jpost) (S : list (list transaction_postings)) : Prop := {
    ch_first : ∀ x, x ∈ ps → ∃ s tp p, s ∈ S ∧ tp ∈ s ∧ p ∈ tp_posts tp ∧ jp_date x = tp_date tp ∧
      (∀ f, has_fp p f → has_fp (jp_post x) f) ∧ ∀ q, soft_match (jp_post x) q → soft_match p q;
    ch_link : ∀ x p q, x ∈ ps → p ∈ all_posts (mjoin S) → q ∈ all_posts (mjoin S) → share_fp (jp_post x) p → share_fp (jp_post x) q →
      rtc linked p q;
    ch_tied : ∀ x y p q, x ∈ ps → y ∈ ps → jp_trn x = jp_trn y → p ∈ all_posts (mjoin S) → q ∈ all_posts (mjoin S) →
      share_fp (jp_post x) p → share_fp (jp_post y) q → rtc tied p q;
  }.

  Context (j : journal) (s : list transaction_postings) (S more : list (list transaction_postings)).
  Context (HU : U = S ++ s :: more) (Hex : explicit U).
  Context (Hwf : journal_wf j) (Hv : valid_set j s) (Hwf' : journal_wf (spec_merge j s)).
  Context (Hclean : ∀ tp, tp ∈ s → left_out j tp = false).
  Context (Hh : homes (j_posts j) S) (Hlog : logged (j_posts j) S) (Hc : chained (j_posts j) S).
  Local Notation j' := (spec_merge j s).

  Lemma in_U p : p ∈ all_posts (mjoin S) → p ∈ all_posts (mjoin U).
  Proof using HU. rewrite HU, mjoin_app, all_posts_app, elem_of_app. by left. Qed.
  Lemma in_U_s p : p ∈ all_posts s → p ∈ all_posts (mjoin U).
  Proof using HU.
    rewrite HU, mjoin_app, all_posts_app, elem_of_app. right. change (mjoin (s :: more)) with (s ++ mjoin more).
    rewrite all_posts_app, elem_of_app. by left.
  Qed.
  (** Where a fingerprint of a posting comes from. *)
  Lemma fp_source x f : x ∈ j_posts j → has_fp (jp_post x) f → ∃ p, p ∈ all_posts (mjoin S) ∧ has_fp p f.
  Proof using Hlog.
    intros Hx Hf. destruct (Hlog x Hx) as (p & rest & E & Ex). pose proof (fold_composed p rest) as Hcp. rewrite <- Ex in Hcp.
    destruct Hf as [Hfp Hf]. assert (f ≠ s2l "unknown-account") as Hne. { intros ->. destruct Hfp as [u Hu]. discriminate Hu. }
    apply (cp_tags _ _ Hcp f Hne) in Hf. apply Exists_exists in Hf as (q & Hq & Hqf). exists q. split; [|done].
    rewrite <- E in Hq. by apply elem_of_list_filter in Hq as [_ Hq].
  Qed.
  Lemma share_source x p : x ∈ j_posts j → share_fp (jp_post x) p →
    ∃ q, q ∈ all_posts (mjoin S) ∧ share_fp q p ∧ share_fp (jp_post x) q.
  Proof using Hlog.
    intros Hx (f & Hf & Hp). destruct (fp_source x f Hx Hf) as (q & Hq & Hqf). exists q. split_and!; [done|by exists f..].
  Qed.
  (** A match is never by the soft criteria alone. *)
  Lemma hard_match tp p i : tp ∈ s → p ∈ tp_posts tp → lookup_posting j (tp_date tp) p = VMerge i →
    ∃ x, j_posts j !! i = Some x ∧ share_fp (jp_post x) p.
  Proof using HU Hex Hc.
    intros Htp Hp. unfold lookup_posting.
    destruct (fp_hits j p) as [|i0 [|]] eqn:Ef; [|intros [= <-]; assert (i0 ∈ fp_hits j p) as Hi by (rewrite Ef; left);
      by apply elem_of_fp_hits in Hi|done].
    destruct (soft_hits j (tp_date tp) p) as [|i0 [|]] eqn:Es; [done| |done]. intros [= <-].
    assert (i0 ∈ soft_hits j (tp_date tp) p) as Hi by (rewrite Es; left).
    apply soft_match_hits in Hi as (x & Hx & Hd & Hs).
    exfalso. destruct (ch_first _ _ Hc x) as (s0 & tp0 & p0 & Hs0 & Htp0 & Hp0 & Hd0 & Hf0 & Hm0); [by eapply elem_of_list_lookup_2|].
    apply elem_of_Permutation in Hs0 as [r Hr].
    destruct (Hex s0 s (r ++ more) tp0 tp p0 p) as (f & Hf1 & Hf2); try done.
    - rewrite HU, Hr. cbn [app]. apply perm_skip. symmetry. apply Permutation_middle.
    - congruence.
    - by apply Hm0.
    - assert (i0 ∈ fp_hits j p) as H. { apply elem_of_fp_hits. exists x. split; [done|]. exists f. auto. }
      rewrite Ef in H. by apply elem_of_nil in H.
  Qed.

  Lemma chain_step : chained (j_posts j') (S ++ [s]).
  Proof using HU Hex Hwf Hv Hwf' Hclean Hh Hlog Hc.
    destruct (set_places j s Hwf Hv) as (loc & tr & Hpl & Hinj & Hcov & Htr).
    assert (∀ a tp, s !! a = Some tp → left_out j tp = false) as Hk by (intros a tp Ha; apply Hclean; by eapply elem_of_list_lookup_2).
    assert (∀ a b tp p, s !! a = Some tp → tp_posts tp !! b = Some p → p ∈ all_posts s) as Hin.
    { intros a b tp p Ha Hb. apply elem_of_list_bind. exists tp. split; by eapply elem_of_list_lookup_2. }
    assert (∀ a b tp p i x, s !! a = Some tp → tp_posts tp !! b = Some p → j_posts j' !! i = Some x →
      share_fp (jp_post x) p → i = loc a b ∧ jp_trn x = tr a) as Hnew.
    { intros a b tp p i x Ha Hb Hx (f & Hxf & Hpf).
      destruct (placed_super j s tp p (tr a) (loc a b)) as (y & Hy & Ht & Hyf); [by eapply Hin|by apply (Hpl a b tp p); eauto|].
      assert (i = loc a b) as ->; [|split; [done|congruence]].
      eapply wf_same; [exact Hwf'|done|done|]. exists f. auto. }
    (** A new posting at an old place is linked to the sources of the place. *)
    assert (∀ a b tp p x, s !! a = Some tp → tp_posts tp !! b = Some p → j_posts j !! loc a b = Some x →
      ∃ q, q ∈ all_posts (mjoin S) ∧ share_fp (jp_post x) q ∧ rtc linked q p) as Hlink.
    { intros a b tp p x Ha Hb Hx. assert (share_fp (jp_post x) p) as Hsh.
      { destruct (Hpl a b tp p Ha (Hk a tp Ha) Hb) as [[(x0 & _ & E & _)|(Hge & _)]].
        - destruct (hard_match tp p (loc a b)) as (y & Hy & ?); [by eapply elem_of_list_lookup_2..|done|]. congruence.
        - apply lookup_lt_Some in Hx. lia. }
      destruct (share_source x p) as (q & Hq & Hqp & Hxq); [by eapply elem_of_list_lookup_2|done|].
      exists q. split_and!; [done..|]. apply rtc_once. split_and!; [by apply in_U|by eapply in_U_s, Hin|done]. }
    (** A new posting in an old transaction is tied to one of its sources. *)
    assert (∀ a b tp p, s !! a = Some tp → tp_posts tp !! b = Some p → tr a < length (j_trns j) →
      ∃ q x, x ∈ j_posts j ∧ jp_trn x = tr a ∧ q ∈ all_posts (mjoin S) ∧ share_fp (jp_post x) q ∧ rtc tied q p) as Htie.
    { intros a b tp p Ha Hb Hlt. rewrite (Htr a tp Ha (Hk a tp Ha)) in Hlt |- *. unfold target in *.
      destruct (dest_trns j tp) as [|t ts] eqn:E; [lia|].
      assert (t ∈ dest_trns j tp) as Ht by (rewrite E; left). unfold dest_trns in Ht.
      apply elem_of_list_bind in Ht as (k & Ht & Hkd). destruct (j_posts j !! k) as [y|] eqn:Ey; simpl in Ht; [|by apply elem_of_nil in Ht].
      apply elem_of_list_singleton in Ht. unfold dests, verdicts in Hkd.
      apply elem_of_list_omap in Hkd as (v & Hvd & Ev). destruct v; try done. injection Ev as ->.
      apply elem_of_list_fmap in Hvd as (p0 & El & Hp0).
      destruct (hard_match tp p0 k) as (y0 & Hy0 & Hsh); [by eapply elem_of_list_lookup_2|done|done|].
      assert (y0 = y) as -> by congruence.
      destruct (share_source y p0) as (q & Hq & Hqp & Hxq); [by eapply elem_of_list_lookup_2|done|].
      exists q, y. split_and!; [by eapply elem_of_list_lookup_2|done|done|done|].
      eapply rtc_l; [|apply rtc_once].
      - left. split_and!; [by apply in_U| |exact Hqp]. apply in_U_s. apply elem_of_list_bind. exists tp. split; [done|by eapply elem_of_list_lookup_2].
      - right. exists s, tp. split_and!; [rewrite HU; apply elem_of_app; right; left|by eapply elem_of_list_lookup_2|done|by eapply elem_of_list_lookup_2]. }
    assert (∀ p, p ∈ all_posts (mjoin (S ++ [s])) → p ∈ all_posts (mjoin S) ∨ ∃ a b tp, s !! a = Some tp ∧ tp_posts tp !! b = Some p) as Hsplit.
    { intros p. rewrite mjoin_snoc, all_posts_app, elem_of_app. intros [?|H]; [by left|right; by apply in_s_pos]. }
    assert (∀ p i x, p ∈ all_posts (mjoin S) → j_posts j' !! i = Some x → share_fp (jp_post x) p →
      ∃ x0, j_posts j !! i = Some x0 ∧ jp_trn x0 = jp_trn x ∧ share_fp (jp_post x0) p) as Hou.
    { intros p i x (s0 & tp0 & ? & ? & ?)%in_S_all Hx Hsh. by eapply old_unique. }
    constructor.
    - intros x' [i Hi]%elem_of_list_lookup. destruct (decide (i < length (j_posts j))) as [Hlt|Hge].
      + apply lookup_lt_is_Some in Hlt as [x Hx]. rewrite (old_lookup j s i x Hx) in Hi. injection Hi as <-. cbn [jp_date jp_post].
        destruct (ch_first _ _ Hc x) as (s0 & tp & p & H1 & H2 & H3 & H4 & H5 & H6); [by eapply elem_of_list_lookup_2|].
        exists s0, tp, p. split_and!; [apply elem_of_app; by left|done|done|done| |].
        * intros f Hf. apply fold_has_fp. auto.
        * intros q. generalize (merged_into j s i). intros l Hq. apply H6. clear - Hq. revert Hq. generalize (jp_post x). clear x.
          induction l as [|p l IH]; intros x Hq; [done|]. cbn in Hq. apply IH in Hq. by eapply soft_merge.
      + destruct (Hcov i) as (a & b & tp & p & Ha & El & Hb & E). { apply lookup_lt_Some in Hi. lia. }
        destruct (Hpl a b tp p Ha El Hb) as [[(x & Hx & _)|(_ & _ & Hq)]].
        { rewrite E in Hx. apply lookup_lt_Some in Hx. lia. }
        rewrite E, Hi in Hq. injection Hq as ->. exists s, tp, p.
        split_and!; [apply elem_of_app; right; left|by eapply elem_of_list_lookup_2..|done|done|done].
    - intros x p q [i Hx]%elem_of_list_lookup Hp Hq Hxp Hxq.
      destruct (Hsplit p Hp) as [Hp'|(a & b & tp & Ha & Hb)]; destruct (Hsplit q Hq) as [Hq'|(a' & b' & tp' & Ha' & Hb')].
      + destruct (Hou p i x Hp' Hx Hxp) as (x0 & Hx0 & _ & H1). destruct (Hou q i x Hq' Hx Hxq) as (x1 & Hx1 & _ & H2).
        assert (x1 = x0) as -> by congruence. eapply (ch_link _ _ Hc x0); try done. by eapply elem_of_list_lookup_2.
      + destruct (Hou p i x Hp' Hx Hxp) as (x0 & Hx0 & _ & H1). destruct (Hnew a' b' tp' q i x Ha' Hb' Hx Hxq) as [-> _].
        destruct (Hlink a' b' tp' q x0 Ha' Hb' Hx0) as (q0 & Hq0 & Hs0 & Hr0). etrans; [|exact Hr0].
        eapply (ch_link _ _ Hc x0); try done. by eapply elem_of_list_lookup_2.
      + apply rtc_sym; [apply linked_sym|]. destruct (Hou q i x Hq' Hx Hxq) as (x0 & Hx0 & _ & H1). destruct (Hnew a b tp p i x Ha Hb Hx Hxp) as [-> _].
        destruct (Hlink a b tp p x0 Ha Hb Hx0) as (q0 & Hq0 & Hs0 & Hr0). etrans; [|exact Hr0].
        eapply (ch_link _ _ Hc x0); try done. by eapply elem_of_list_lookup_2.
      + destruct (Hnew a b tp p i x Ha Hb Hx Hxp) as [E1 _]. destruct (Hnew a' b' tp' q i x Ha' Hb' Hx Hxq) as [E2 _].
        destruct (Hinj a b a' b' tp tp' p q) as [-> ->]; eauto; [congruence|]. assert (tp' = tp) as -> by congruence. assert (p = q) as -> by congruence. done.
    - intros x y p q [i Hx]%elem_of_list_lookup [k Hy]%elem_of_list_lookup Exy Hp Hq Hxp Hyq.
      assert (∀ i x p, j_posts j' !! i = Some x → p ∈ all_posts (mjoin (S ++ [s])) → share_fp (jp_post x) p → jp_trn x < length (j_trns j) →
        ∃ q x0, x0 ∈ j_posts j ∧ jp_trn x0 = jp_trn x ∧ q ∈ all_posts (mjoin S) ∧ share_fp (jp_post x0) q ∧ rtc tied q p) as Hone.
      { clear i x p Hx Hxp Exy Hp. intros i x p Hx Hp Hxp Hlt. destruct (Hsplit p Hp) as [Hp'|(a & b & tp & Ha & Hb)].
        - destruct (Hou p i x Hp' Hx Hxp) as (x0 & Hx0 & ? & H1). exists p, x0. split_and!; try done. by eapply elem_of_list_lookup_2.
        - destruct (Hnew a b tp p i x Ha Hb Hx Hxp) as [_ E]. rewrite E in Hlt |- *. by apply (Htie a b tp p). }
      destruct (decide (jp_trn x < length (j_trns j))) as [Hlt|Hge].
      + destruct (Hone i x p Hx Hp Hxp Hlt) as (p0 & x0 & Hx0 & Et0 & Hp0 & Hs0 & Hr0).
        rewrite Exy in Hlt. destruct (Hone k y q Hy Hq Hyq Hlt) as (q0 & y0 & Hy0 & Et1 & Hq0 & Hs1 & Hr1).
        etrans; [apply rtc_sym; [apply tied_sym|exact Hr0]|]. etrans; [|exact Hr1].
        eapply (ch_tied _ _ Hc x0 y0); try done. congruence.
      + assert (∀ i x p, j_posts j' !! i = Some x → p ∈ all_posts (mjoin (S ++ [s])) → share_fp (jp_post x) p → ¬ jp_trn x < length (j_trns j) →
          ∃ a b tp, s !! a = Some tp ∧ tp_posts tp !! b = Some p ∧ fresh j tp = true ∧ jp_trn x = length (j_trns j) + length (new_trns j (take a s))) as Htwo.
        { clear i x p Hx Hxp Exy Hp Hge. intros i x p Hx Hp Hxp Hge. destruct (Hsplit p Hp) as [Hp'|(a & b & tp & Ha & Hb)].
          - destruct (Hou p i x Hp' Hx Hxp) as (x0 & Hx0 & E & H1). exfalso. apply Hge. rewrite <- E.
            eapply jw_parent; [done|]. by eapply elem_of_list_lookup_2.
          - destruct (Hnew a b tp p i x Ha Hb Hx Hxp) as [_ E]. exists a, b, tp.
            rewrite E in Hge |- *. rewrite (Htr a tp Ha (Hk a tp Ha)) in Hge |- *.
            destruct (fresh j tp) eqn:Ef.
            + by rewrite (target_new j tp _ (Hk a tp Ha) Ef).
            + exfalso. apply Hge. by apply target_old; eauto. }
        destruct (Htwo i x p Hx Hp Hxp Hge) as (a & b & tp & Ha & Hb & Ef & E).
        rewrite Exy in Hge. destruct (Htwo k y q Hy Hq Hyq Hge) as (a' & b' & tp' & Ha' & Hb' & Ef' & E').
        assert (a = a') as <-.
        { destruct (Nat.lt_trichotomy a a') as [Hlt|[->|Hlt]]; [|done|].
          - pose proof (new_trns_take j s a a' tp Ha Ef Hlt). lia.
          - pose proof (new_trns_take j s a' a tp' Ha' Ef' Hlt). lia. }
        assert (tp' = tp) as -> by congruence. apply rtc_once. right. exists s, tp.
        split_and!; [rewrite HU; apply elem_of_app; right; left|by eapply elem_of_list_lookup_2..].
  Qed.
End order.

Lemma run_chained U m runs m' : clean_run m runs m' → explicit U → ∀ j S, U = S ++ runs.*2 → reachable m → represents m j →
  homes (j_posts j) S → logged (j_posts j) S → chained U (j_posts j) S →
  ∃ j', reachable m' ∧ represents m' j' ∧ homes (j_posts j') U ∧ logged (j_posts j') U ∧ chained U (j_posts j') U.
Proof.
  intros Hrun Hex. induction Hrun as [m|ho s m m1 runs m2 Hho E Hrun IH]; intros j S HU Hr Hj Hh Hl Hc.
  - exists j. cbn in HU. rewrite app_nil_r in HU. by rewrite HU in *.
  - destruct (merge_inv m j Hr Hj ho s m1 [] Hho E) as (Hv & Hwf' & Hj1 & Hun).
    pose proof (clean_left_out j s Hun) as Hcl. pose proof (reachable_wf m j Hr Hj) as Hwf.
    assert (reachable m1) as Hr1. { replace m1 with (merge ho m s).1 by by rewrite E. by constructor. }
    apply (IH (spec_merge j s) (S ++ [s])); try done.
    + rewrite <- (assoc_L (++)). exact HU.
    + by apply step_homes.
    + by apply step_logged.
    + by eapply chain_step.
Qed.

(** * Two journals of the same inputs *)
Lemma explicit_perm U U' : U ≡ₚ U' → explicit U → explicit U'.
Proof. intros HU H s s' rest tp tp' p p' Hp. apply (H s s' rest). by rewrite HU. Qed.
Lemma all_posts_join_perm U U' : U ≡ₚ U' → all_posts (mjoin U) ≡ₚ all_posts (mjoin U').
Proof. intros H. apply bind_Permutation. by rewrite H. Qed.
Lemma linked_perm U U' p q : U ≡ₚ U' → linked U p q → linked U' p q.
Proof. intros HU (H1 & H2 & H3). split_and!; [by rewrite <- (all_posts_join_perm _ _ HU)..|done]. Qed.
Lemma tied_perm U U' p q : U ≡ₚ U' → tied U p q → tied U' p q.
Proof.
  intros HU [H|(s & tp & H1 & H2)]; [left; by eapply linked_perm|right]. exists s, tp. split; [by rewrite <- HU|done].
Qed.

Record journal_of (U : list (list transaction_postings)) (j : journal) : Prop := {
  jo_wf : journal_wf j;
  jo_homes : homes (j_posts j) U;
  jo_logged : logged (j_posts j) U;
  jo_chained : chained U (j_posts j) U;
}.
Section two.
  Context (U U' : list (list transaction_postings)) (j j' : journal).
  Context (HU : U ≡ₚ U') (Hj : journal_of U j) (Hj' : journal_of U' j').

  Lemma jo_home p : p ∈ all_posts (mjoin U) → ∃ y, y ∈ j_posts j' ∧ ∀ f, has_fp p f → has_fp (jp_post y) f.
  Proof using HU Hj'.
    intros Hp. rewrite (all_posts_join_perm _ _ HU) in Hp. apply in_S_all in Hp as (s & tp & Hs & Htp & Hp).
    destruct (hm_home _ _ (jo_homes _ _ Hj') s tp p Hs Htp Hp) as (i & y & Hy & Hf). exists y. split; [|done]. by eapply elem_of_list_lookup_2.
  Qed.
  Lemma jo_same y z : y ∈ j_posts j' → z ∈ j_posts j' → share_fp (jp_post y) (jp_post z) → y = z.
  Proof using Hj'.
    intros [i Hy]%elem_of_list_lookup [k Hz]%elem_of_list_lookup Hs. pose proof (wf_same j' i k y z (jo_wf _ _ Hj') Hy Hz Hs). subst k. congruence.
  Qed.
  Lemma jo_all y p : y ∈ j_posts j' → p ∈ all_posts (mjoin U) → share_fp (jp_post y) p → ∀ f, has_fp p f → has_fp (jp_post y) f.
  Proof using HU Hj'.
    intros Hy Hp (f & Hf1 & Hf2). destruct (jo_home p Hp) as (z & Hz & Hf).
    assert (y = z) as <-; [|done]. apply jo_same; [done..|]. exists f. auto.
  Qed.
  Lemma jo_linked y p q : y ∈ j_posts j' → rtc (linked U) p q → share_fp (jp_post y) p → share_fp (jp_post y) q.
  Proof using HU Hj'.
    intros Hy H. induction H as [p|p q r (Hp & Hq & f & Hf1 & Hf2) _ IH]; [done|]. intros Hs. apply IH. exists f. split; [|done].
    by eapply (jo_all y p).
  Qed.
  Lemma jo_tied p q : rtc (tied U) p q → ∀ y z, y ∈ j_posts j' → z ∈ j_posts j' → p ∈ all_posts (mjoin U) → q ∈ all_posts (mjoin U) →
    share_fp (jp_post y) p → share_fp (jp_post z) q → jp_trn y = jp_trn z.
  Proof using HU Hj'.
    intros H. induction H as [p|p q r Hpq _ IH]; intros y z Hy Hz Hp Hr Hyp Hzr.
    - destruct Hyp as (f & ? & ?). destruct Hzr as (g & ? & ?). assert (y = z) as ->; [|done].
      apply jo_same; [done..|]. exists f. split; [done|]. eapply (jo_all z p); [done..| |done]. by exists g.
    - destruct Hpq as [(_ & Hq & f & Hf1 & Hf2)|(s & tp & Hs & Htp & H1 & H2)].
      + apply (IH y z); try done. exists f. split; [|done]. by eapply (jo_all y p).
      + assert (q ∈ all_posts (mjoin U)) as Hq. { apply elem_of_list_bind. exists tp. split; [done|]. apply elem_of_list_join. by exists s. }
        destruct (jo_home q Hq) as (w & Hw & Hfw).
        assert (share_fp (jp_post w) q) as Hwq.
        { destruct (hm_ok _ _ (jo_homes _ _ Hj') s) as (Hm & _); [by rewrite <- HU|].
          destruct (mergeable_fp q) as [f Hf]. { apply Hm, elem_of_list_bind. by exists tp. }
          exists f. auto. }
        transitivity (jp_trn w); [|by apply (IH w z)].
        eapply (hm_group _ _ (jo_homes _ _ Hj') s tp p q y w); try done. by rewrite <- HU.
  Qed.
  (** The posting of the other journal with the same inputs. *)
  Lemma partner x : x ∈ j_posts j → ∃ y, y ∈ j_posts j' ∧ share_fp (jp_post x) (jp_post y) ∧ same_inputs (jp_post x) (jp_post y).
  Proof using HU Hj Hj'.
    intros Hx. destruct (jo_logged _ _ Hj x Hx) as (p & rest & E & Ex).
    assert (p ∈ sharing (jp_post x) (all_posts (mjoin U))) as Hp by (rewrite E; left).
    apply elem_of_list_filter in Hp as [Hxp Hp]. apply share_fpb_spec in Hxp.
    destruct (jo_home p Hp) as (y & Hy & Hf). pose proof Hxp as (f & Hf1 & Hf2).
    assert (share_fp (jp_post y) p) as Hyp. { exists f. auto. }
    exists y. split; [done|]. split; [exists f; auto|].
    destruct (jo_logged _ _ Hj' y Hy) as (p' & rest' & E' & Ey).
    exists (p :: rest), (p' :: rest'). split_and!; [rewrite Ex; apply fold_composed|rewrite Ey; apply fold_composed|].
    rewrite <- E, <- E'. unfold sharing. rewrite <- (all_posts_join_perm _ _ HU). match goal with |- ?a ≡ₚ ?b => assert (a = b) as ->; [|done] end. apply filter_ext'.
    intros q Hq. rewrite !share_fpb_spec. split; intros Hs.
    - apply (jo_linked y p q); [done| |done]. by apply (ch_link _ _ _ (jo_chained _ _ Hj) x p q).
    - assert (rtc (linked U') p q) as Hr.
      { apply (ch_link _ _ _ (jo_chained _ _ Hj') y p q); try done; by rewrite <- (all_posts_join_perm _ _ HU). }
      clear - Hr Hx Hxp Hj HU. induction Hr as [p|p q r (Hp & Hq & f & Hf1 & Hf2) _ IH]; [done|]. apply IH. exists f. split; [|done].
      rewrite <- (all_posts_join_perm _ _ HU) in Hp. apply in_S_all in Hp as (s & tp & Hs & Htp & Hp).
      destruct (hm_home _ _ (jo_homes _ _ Hj) s tp p Hs Htp Hp) as (i & z & Hz & Hf).
      apply elem_of_list_lookup in Hx as [k Hx]. destruct Hxp as (g & Hg1 & Hg2).
      assert (k = i) as ->. { apply (wf_same j k i x z (jo_wf _ _ Hj) Hx Hz). exists g. auto. }
      assert (z = x) as -> by congruence. auto.
  Qed.
  Lemma partner_trn x x1 y y1 : x ∈ j_posts j → x1 ∈ j_posts j → y ∈ j_posts j' → y1 ∈ j_posts j' → jp_trn x = jp_trn x1 →
    share_fp (jp_post x) (jp_post y) → share_fp (jp_post x1) (jp_post y1) → jp_trn y = jp_trn y1.
  Proof using HU Hj Hj'.
    intros Hx Hx1 Hy Hy1 Et (f & Hf1 & Hf2) (g & Hg1 & Hg2).
    destruct (fp_source j U (jo_logged _ _ Hj) x f Hx Hf1) as (p & Hp & Hpf).
    destruct (fp_source j U (jo_logged _ _ Hj) x1 g Hx1 Hg1) as (q & Hq & Hqg).
    apply (jo_tied p q); try done; [|by exists f|by exists g].
    apply (ch_tied _ _ _ (jo_chained _ _ Hj) x x1); try done; [by exists f|by exists g].
  Qed.
End two.

Lemma match_up {A B} (R : A → B → Prop) (l : list A) : ∀ (k : list B), NoDup l → NoDup k →
  (∀ x, x ∈ l → ∃ y, y ∈ k ∧ R x y) → (∀ y, y ∈ k → ∃ x, x ∈ l ∧ R x y) →
  (∀ x y y', x ∈ l → y ∈ k → y' ∈ k → R x y → R x y' → y = y') → (∀ x x' y, x ∈ l → x' ∈ l → y ∈ k → R x y → R x' y → x = x') →
  ∃ k', k' ≡ₚ k ∧ Forall2 R l k'.
Proof.
  induction l as [|x l IH]; intros k Hl Hk Ht Hs Hf Hi.
  - exists []. split; [|constructor]. destruct k as [|y k]; [done|]. destruct (Hs y) as (x & Hx & _); [left|]. by apply elem_of_nil in Hx.
  - apply NoDup_cons in Hl as [Hx Hl]. destruct (Ht x) as (y & Hy & Hxy); [left|].
    pose proof Hy as [k1 Hk1]%elem_of_Permutation. rewrite Hk1 in Hk. apply NoDup_cons in Hk as [Hyk Hk].
    assert (∀ z, z ∈ k1 → z ∈ k) as Hsub. { intros z Hz. rewrite Hk1. by right. }
    destruct (IH k1) as (k' & Hp & HF); [done|done| | | | |].
    + intros a Ha. destruct (Ht a) as (b & Hb & Hab); [by right|]. exists b. split; [|done].
      rewrite Hk1 in Hb. apply elem_of_cons in Hb as [->|Hb]; [|done]. destruct Hx.
      assert (a = x) as <-; [|done]. apply (Hi a x y); [by right|left|done..].
    + intros b Hb. destruct (Hs b) as (a & Ha & Hab); [by apply Hsub|]. exists a. split; [|done].
      apply elem_of_cons in Ha as [->|Ha]; [|done]. destruct Hyk. assert (b = y) as <-; [|done]. apply (Hf x b y); [left|by apply Hsub|done..].
    + intros a b b' Ha Hb Hb'. apply Hf; [by right|by apply Hsub..].
    + intros a a' b Ha Ha' Hb. apply Hi; [by right..|by apply Hsub].
    + exists (y :: k'). split; [by rewrite Hp, Hk1|]. by constructor.
Qed.

(** What a built journal is, by values. *)
Record shows (j : journal) (out : list transaction_postings) : Prop := {
  sw_trn : ∀ tp, tp ∈ out → tp_posts tp ≠ [] ∧ ∃ t, ∀ q, q ∈ tp_posts tp ↔ ∃ x, x ∈ j_posts j ∧ jp_post x = q ∧ jp_trn x = t;
  sw_all : ∀ x, x ∈ j_posts j → ∃ tp, tp ∈ out ∧ jp_post x ∈ tp_posts tp;
  sw_nodup : NoDup out;
  sw_posts : ∀ tp, tp ∈ out → NoDup (tp_posts tp);
  sw_same : ∀ tp tp' q q', tp ∈ out → tp' ∈ out → q ∈ tp_posts tp → q' ∈ tp_posts tp' → share_fp q q' → tp = tp' ∧ q = q';
  sw_fp : ∀ tp q, tp ∈ out → q ∈ tp_posts tp → share_fp q q;
}.
Lemma built_shows ho m j out : hash_order_ok ho → represents m j → journal_wf j → build ho m = Ok out → shows j out.
Proof.
  intros Hho Hm Hwf Hb. pose proof (built_posts_perm ho m j out Hho Hm Hwf Hb) as Hp.
  assert (fps_distinct (all_posts out)) as Hd by (rewrite Hp; apply Hwf).
  assert (∀ tp, tp ∈ out → ∃ t h, j_trns j !! t = Some h ∧ tp = TP h (jp_post <$> filter (λ x, jp_trn x = t) (j_posts j))) as Hout.
  { intros tp Htp. rewrite (build_inv ho m j out Hho Hm Hb) in Htp. rewrite (stable_sort_perm _ (journal_trns j)) in Htp.
    apply elem_of_lookup_imap in Htp as (t & h & -> & Ht). eauto. }
  assert (∀ tp q, tp ∈ out → q ∈ tp_posts tp → share_fp q q) as Hself.
  { intros tp q (t & h & _ & ->)%Hout Hq. cbn [tp_posts] in Hq. apply elem_of_list_fmap in Hq as (x & -> & Hx).
    apply elem_of_list_filter in Hx as [_ Hx]. destruct (mergeable_fp _ (jw_mergeable _ Hwf x Hx)) as [f Hf]. by exists f. }
  assert (∀ tp, tp ∈ out → tp_posts tp ≠ []) as Hne.
  { intros tp Htp. destruct (Hout tp Htp) as (t & h & Ht & ->). cbn [tp_posts]. intros E.
    apply lookup_lt_Some in Ht. destruct (jw_nonempty _ Hwf t Ht) as (x & Hx & Et).
    assert (jp_post x ∈ ([] : list posting_internal)) as H; [|by apply elem_of_nil in H]. rewrite <- E.
    apply elem_of_list_fmap. exists x. split; [done|]. by apply elem_of_list_filter. }
  constructor.
  - intros tp Htp. split; [by apply Hne|]. destruct (Hout tp Htp) as (t & h & Ht & ->). exists t. intros q. cbn [tp_posts].
    rewrite elem_of_list_fmap. setoid_rewrite elem_of_list_filter. naive_solver.
  - intros x Hx. assert (jp_post x ∈ all_posts out) as Hq. { rewrite Hp. apply elem_of_list_fmap. by exists x. }
    apply elem_of_list_bind in Hq as (tp & ? & ?). by exists tp.
  - apply NoDup_alt. intros a a' tp Ha Ha'. destruct (tp_posts tp) as [|q l] eqn:E.
    { destruct (Hne tp); [by eapply elem_of_list_lookup_2|done]. }
    assert (tp_posts tp !! 0 = Some q) as H0 by by rewrite E.
    destruct (same_place out a 0 a' 0 tp tp q q) as [? _]; try done. eapply Hself; [by eapply elem_of_list_lookup_2|]. rewrite E. left.
  - intros tp Htp. apply NoDup_alt. intros b b' q Hq Hq'. pose proof Htp as [a Ha]%elem_of_list_lookup.
    destruct (same_place out a b a b' tp tp q q) as [_ ?]; try done. eapply Hself; [done|]. by eapply elem_of_list_lookup_2.
  - intros tp tp' q q' [a Ha]%elem_of_list_lookup [a' Ha']%elem_of_list_lookup [b Hq]%elem_of_list_lookup [b' Hq']%elem_of_list_lookup Hs.
    destruct (same_place out a b a' b' tp tp' q q') as [-> ->]; try done. assert (tp' = tp) as -> by congruence. split; congruence.
  - done.
Qed.

Lemma same_inputs_fp q q' : same_inputs q q' → ∀ f, has_fp q f ↔ has_fp q' f.
Proof.
  intros (l & l' & H1 & H2 & Hp) f. unfold has_fp. 
  assert (∀ t, t ≠ s2l "unknown-account" → has_tag q t ↔ has_tag q' t) as Ht.
  { intros t Ht. rewrite (cp_tags _ _ H1 t Ht), (cp_tags _ _ H2 t Ht), Hp. done. }
  split; intros [Hf Hq]; (split; [done|]); apply Ht; try done; intros ->; destruct Hf as [u Hu]; discriminate Hu.
Qed.
Lemma order_core U U' j j' out out' : U ≡ₚ U' → journal_of U j → journal_of U' j' → shows j out → shows j' out' → same_up_to_order out out'.
Proof.
  intros HU Hj Hj' Hs Hs'.
  set (R := λ q q' : posting_internal, share_fp q q' ∧ same_inputs q q').
  assert (∀ x, x ∈ j_posts j → ∃ y, y ∈ j_posts j' ∧ R (jp_post x) (jp_post y)) as H1.
  { intros x Hx. destruct (partner U U' j j' HU Hj Hj' x Hx) as (y & ? & ? & ?). by exists y. }
  assert (∀ y, y ∈ j_posts j' → ∃ x, x ∈ j_posts j ∧ R (jp_post x) (jp_post y)) as H2.
  { intros y Hy. destruct (partner U' U j' j (symmetry HU) Hj' Hj y Hy) as (x & ? & ? & (l & l' & ? & ? & ?)). exists x.
    split; [done|]. split; [by apply share_swap|]. exists l', l. done. }
  assert (∀ x y y', x ∈ j_posts j → y ∈ j_posts j' → y' ∈ j_posts j' → share_fp (jp_post x) (jp_post y) → share_fp (jp_post x) (jp_post y') →
    y = y') as F1.
  { intros x y y' Hx Hy Hy' (f & Hf1 & Hf2) (g & Hg1 & Hg2). destruct (H1 x Hx) as (z & Hz & _ & HR).
    pose proof (same_inputs_fp _ _ HR) as Hfp. transitivity z; [symmetry|]; apply (jo_same U' j' Hj'); try done.
    - exists f. split; [by apply Hfp|done].
    - exists g. split; [by apply Hfp|done]. }
  assert (∀ x x' y, x ∈ j_posts j → x' ∈ j_posts j → y ∈ j_posts j' → share_fp (jp_post x) (jp_post y) → share_fp (jp_post x') (jp_post y) →
    x = x') as F2.
  { intros x x' y Hx Hx' Hy (f & Hf1 & Hf2) (g & Hg1 & Hg2). destruct (H2 y Hy) as (z & Hz & _ & HR).
    pose proof (same_inputs_fp _ _ HR) as Hfp. transitivity z; [|symmetry]; apply (jo_same U j Hj); try done.
    - exists f. split; [done|by apply Hfp].
    - exists g. split; [done|by apply Hfp]. }
  pose proof (partner_trn U U' j j' HU Hj Hj') as T1.
  pose proof (partner_trn U' U j' j (symmetry HU) Hj' Hj) as T2.
  (** Transactions that have a posting in common. *)
  assert (∀ tp tp' q q', tp ∈ out → tp' ∈ out' → q ∈ tp_posts tp → q' ∈ tp_posts tp' → share_fp q q' →
    ∃ ps, ps ≡ₚ tp_posts tp' ∧ Forall2 R (tp_posts tp) ps) as Hpair.
  { intros tp tp' q q' Htp Htp' Hq Hq' Hsh.
    destruct (sw_trn _ _ Hs tp Htp) as (_ & t & Ht). destruct (sw_trn _ _ Hs' tp' Htp') as (_ & t' & Ht').
    destruct (proj1 (Ht q) Hq) as (x & Hx & Ex & Etx). destruct (proj1 (Ht' q') Hq') as (y & Hy & Ey & Ety).
    apply match_up; [by apply (sw_posts _ _ Hs)|by apply (sw_posts _ _ Hs')| | | |].
    - intros q1 (x1 & Hx1 & <- & Et1)%Ht. destruct (H1 x1 Hx1) as (y1 & Hy1 & HR). exists (jp_post y1). split; [|done].
      apply Ht'. exists y1. split_and!; [done..|]. rewrite <- Ety. destruct HR as [HR _]. apply (T1 x1 x y1 y); try done; congruence.
    - intros q1 (y1 & Hy1 & <- & Et1)%Ht'. destruct (H2 y1 Hy1) as (x1 & Hx1 & HR). exists (jp_post x1). split; [|done].
      apply Ht. exists x1. split_and!; [done..|]. rewrite <- Etx. destruct HR as [HR _].
      apply (T2 y1 y x1 x); try done; [congruence|by apply share_swap|apply share_swap; congruence].
    - intros a b b' (xa & Hxa & <- & _)%Ht (yb & Hyb & <- & _)%Ht' (yb' & Hyb' & <- & _)%Ht' [Hab _] [Hab' _].
      by rewrite (F1 xa yb yb').
    - intros a a' b (xa & Hxa & <- & _)%Ht (xa' & Hxa' & <- & _)%Ht (yb & Hyb & <- & _)%Ht' [Hab _] [Hab' _].
      by rewrite (F2 xa xa' yb). }
  assert (∀ tp tp', tp ∈ out → tp' ∈ out' → (∃ ps, ps ≡ₚ tp_posts tp' ∧ Forall2 R (tp_posts tp) ps) →
    ∃ x y, x ∈ j_posts j ∧ y ∈ j_posts j' ∧ jp_post x ∈ tp_posts tp ∧ jp_post y ∈ tp_posts tp' ∧ share_fp (jp_post x) (jp_post y)) as Hcommon.
  { intros tp tp' Htp Htp' (ps & Hps & HF). destruct (sw_trn _ _ Hs tp Htp) as (Hne & t & Ht). destruct (sw_trn _ _ Hs' tp' Htp') as (_ & t' & Ht').
    destruct HF as [|q q' l l' [HR _] HF]; [done|].
    destruct (proj1 (Ht q)) as (x & Hx & Ex & _); [left|]. destruct (proj1 (Ht' q')) as (y & Hy & Ey & _); [rewrite <- Hps; left|].
    exists x, y. split_and!; [done|done|rewrite Ex; left|rewrite Ey, <- Hps; left|congruence]. }
  destruct (match_up (λ tp tp', ∃ ps, ps ≡ₚ tp_posts tp' ∧ Forall2 R (tp_posts tp) ps) out out') as (out'' & Hp & HF).
  - apply Hs.
  - apply Hs'.
  - intros tp Htp. destruct (sw_trn _ _ Hs tp Htp) as (Hne & t & Ht). destruct (tp_posts tp) as [|q l] eqn:E; [done|].
    destruct (proj1 (Ht q)) as (x & Hx & Ex & _); [left|]. destruct (H1 x Hx) as (y & Hy & HR).
    destruct (sw_all _ _ Hs' y Hy) as (tp' & Htp' & Hy'). exists tp'. split; [done|]. rewrite <- E.
    apply (Hpair tp tp' q (jp_post y)); try done; [rewrite E; left|]. destruct HR as [HR _]. congruence.
  - intros tp' Htp'. destruct (sw_trn _ _ Hs' tp' Htp') as (Hne & t & Ht). destruct (tp_posts tp') as [|q l] eqn:E; [done|].
    destruct (proj1 (Ht q)) as (y & Hy & Ey & _); [left|]. destruct (H2 y Hy) as (x & Hx & HR).
    destruct (sw_all _ _ Hs x Hx) as (tp & Htp & Hx'). exists tp. split; [done|].
    rewrite <- E. apply (Hpair tp tp' (jp_post x) q); try done; [rewrite E; left|]. destruct HR as [HR _]. congruence.
  - intros tp tp1 tp2 Htp Htp1 Htp2 HR1 HR2. 
    destruct HR1 as (ps1 & Hp1 & HF1). destruct HR2 as (ps2 & Hp2 & HF2). destruct (sw_trn _ _ Hs tp Htp) as (Hne & t & Ht).
    destruct (tp_posts tp) as [|q l] eqn:E; [done|]. apply Forall2_cons_inv_l in HF1 as (q1 & l1 & [HR1 _] & _ & ->).
    apply Forall2_cons_inv_l in HF2 as (q2 & l2 & [HR2 _] & _ & ->).
    assert (q1 ∈ tp_posts tp1) as Hq1 by (rewrite <- Hp1; left). assert (q2 ∈ tp_posts tp2) as Hq2 by (rewrite <- Hp2; left).
    destruct (proj1 (Ht q)) as (x & Hx & <- & _); [left|].
    destruct (sw_trn _ _ Hs' tp1 Htp1) as (_ & t1 & Ht1). destruct (sw_trn _ _ Hs' tp2 Htp2) as (_ & t2 & Ht2).
    destruct (proj1 (Ht1 q1) Hq1) as (y1 & Hy1 & E1 & _). destruct (proj1 (Ht2 q2) Hq2) as (y2 & Hy2 & E2 & _).
    assert (y1 = y2) as <-. { apply (F1 x); congruence. }
    assert (q1 = q2) as <- by congruence.
    destruct (sw_same _ _ Hs' tp1 tp2 q1 q1) as [? _]; try done. by eapply (sw_fp _ _ Hs' tp1).
  - intros tp1 tp2 tp Htp1 Htp2 Htp HR1 HR2. destruct (sw_trn _ _ Hs' tp Htp) as (Hne & t & Ht).
    assert (∃ q, q ∈ tp_posts tp) as [q Hq]. { destruct (tp_posts tp) as [|q ?]; [done|]. exists q. left. }
    destruct (proj1 (Ht q) Hq) as (y & Hy & Ey & _).
    assert (∀ tp0, tp0 ∈ out → (∃ ps, ps ≡ₚ tp_posts tp ∧ Forall2 R (tp_posts tp0) ps) → ∃ x, x ∈ j_posts j ∧ jp_post x ∈ tp_posts tp0 ∧
      share_fp (jp_post x) (jp_post y)) as Hget.
    { intros tp0 Htp0 (ps & Hps & HF). rewrite <- Hps in Hq. destruct (sw_trn _ _ Hs tp0 Htp0) as (_ & t0 & Ht0).
      apply elem_of_list_lookup in Hq as [b Hq]. destruct (Forall2_lookup_r _ _ _ _ _ HF Hq) as (q0 & Hq0 & [HR _]).
      apply elem_of_list_lookup_2 in Hq0. destruct (proj1 (Ht0 q0) Hq0) as (x & Hx & <- & _). exists x. split_and!; [done..|congruence]. }
    destruct (Hget tp1 Htp1 HR1) as (x1 & Hx1 & Hin1 & Hsh1). destruct (Hget tp2 Htp2 HR2) as (x2 & Hx2 & Hin2 & Hsh2).
    assert (x1 = x2) as <- by by apply (F2 x1 x2 y).
    destruct (sw_same _ _ Hs tp1 tp2 (jp_post x1) (jp_post x1)) as [? _]; try done. by eapply (sw_fp _ _ Hs tp1).
  - exists out''. split; [done|]. eapply Forall2_impl; [exact HF|]. intros tp tp' (ps & Hps & HF'). exists ps. split; [done|].
    eapply Forall2_impl; [exact HF'|]. by intros q q' [_ ?].
Qed.

Lemma order_of_inputs runs runs' m m' ho ho' out out' : explicit runs.*2 → runs.*2 ≡ₚ runs'.*2 →
  clean_run merger_new runs m → clean_run merger_new runs' m' → hash_order_ok ho → hash_order_ok ho' →
  build ho m = Ok out → build ho' m' = Ok out' → same_up_to_order out out'.
Proof.
  intros Hex HU Hr Hr' Hho Hho' Hb Hb'.
  assert (∀ runs m, explicit runs.*2 → clean_run merger_new runs m → ∃ j, represents m j ∧ journal_of runs.*2 j) as H.
  { clear. intros runs m Hex Hr.
    destruct (run_chained runs.*2 merger_new runs m Hr Hex journal_new []) as (j & H1 & H2 & H3 & H4 & H5); try done.
    - apply reach_new.
    - apply rep_new.
    - split; try done; intros ? ?; repeat intro; match goal with H : _ ∈ [] |- _ => by apply elem_of_nil in H end.
    - intros x Hx. by apply elem_of_nil in Hx.
    - split; repeat intro; match goal with H : _ ∈ [] |- _ => by apply elem_of_nil in H | H : _ ∈ j_posts journal_new |- _ => by apply elem_of_nil in H end.
    - exists j. split; [done|]. split; try done. by eapply reachable_wf. }
  destruct (H runs m Hex Hr) as (j & Hm & Hj). destruct (H runs' m' (explicit_perm _ _ HU Hex) Hr') as (j' & Hm' & Hj').
  eapply (order_core _ _ j j'); try done.
  - apply (built_shows ho m j out); try done. apply Hj.
  - apply (built_shows ho' m' j' out'); try done. apply Hj'.
Qed.

(** * What the order of the inputs does not change *)
Lemma first_of {A} (P : A → Prop) `{∀ x, Decision (P x)} l : Exists P l → ∃ before x after, l = before ++ x :: after ∧ P x ∧ Forall (λ x, ¬ P x) before.
Proof.
  induction l as [|x l IH]; intros HE; [by apply Exists_nil in HE|]. destruct (decide (P x)) as [Hx|Hx].
  - exists [], x, l. done.
  - apply Exists_cons in HE as [?|HE]; [done|]. destruct (IH HE) as (b & y & a & -> & Hy & Hb). exists (x :: b), y, a.
    split_and!; [done..|]. by constructor.
Qed.
Lemma last_of {A} (P : A → Prop) `{∀ x, Decision (P x)} l : Exists P l → ∃ before x after, l = before ++ x :: after ∧ P x ∧ Forall (λ x, ¬ P x) after.
Proof.
  induction l as [|x l IH]; intros HE; [by apply Exists_nil in HE|]. destruct (decide (Exists P l)) as [Hl|Hl].
  - destruct (IH Hl) as (b & y & a & -> & Hy & Ha). by exists (x :: b), y, a.
  - apply Exists_cons in HE as [Hx|?]; [|done]. exists [], x, l. split_and!; [done..|]. by apply Forall_Exists_neg.
Qed.
Lemma new_lines_elem seen l x : x ∈ seen ++ new_lines seen l ↔ x ∈ seen ∨ x ∈ l.
Proof.
  rewrite elem_of_app. revert seen. induction l as [|y l IH]; intros seen; cbn [new_lines]; [done|].
  destruct (decide (y ∈ seen)) as [Hy|Hy].
  - rewrite IH, elem_of_cons. split; [tauto|]. intros [?|[->|?]]; tauto.
  - rewrite !elem_of_cons. specialize (IH (y :: seen)). rewrite elem_of_cons in IH. tauto.
Qed.
#[local] Existing Instance unknown_account_dec.
Section composed.
  Context (ps : list posting_internal) (q : posting_internal) (Hq : composed ps q).
  Lemma composed_lines l : l ∈ lines (pi_comment q) ↔ Exists (λ p, l ∈ lines (pi_comment p)) ps.
  Proof using Hq.
    destruct (cp_first _ _ Hq) as (p & rest & -> & _ & _ & _ & -> & _). rewrite new_lines_elem, Exists_cons, elem_of_list_bind, Exists_exists.
    split; intros [?|(x & ? & ?)]; eauto.
  Qed.
  Lemma composed_balance : is_Some (p_balance (pi_raw q)) ↔ Exists (λ p, is_Some (p_balance (pi_raw p))) ps.
  Proof using Hq.
    split.
    - intros [b Hb]. apply (cp_balance _ _ Hq) in Hb as (be & p & af & -> & _ & Hb). apply Exists_app. right. left. by exists b.
    - intros HE. destruct (first_of _ _ HE) as (be & p & af & E & [b Hb] & Hf). exists b. apply (cp_balance _ _ Hq).
      exists be, p, af. split_and!; [done| |done]. eapply Forall_impl; [exact Hf|]. intros x Hx. by apply eq_None_not_Some.
  Qed.
  Lemma composed_value k : is_Some (value_tags (pi_comment q) !! k) ↔ Exists (λ p, is_Some (value_tags (pi_comment p) !! k)) ps.
  Proof using Hq.
    split.
    - intros [b Hb]. apply (cp_values _ _ Hq) in Hb as (be & p & af & -> & Hb & _). apply Exists_app. right. left. by exists b.
    - intros HE. destruct (last_of _ _ HE) as (be & p & af & E & [b Hb] & Hf). exists b. apply (cp_values _ _ Hq).
      exists be, p, af. split_and!; [done|done|]. eapply Forall_impl; [exact Hf|]. intros x Hx. by apply eq_None_not_Some.
  Qed.
  Lemma composed_account : ¬ unknown_account q → ∃ p, p ∈ ps ∧ ¬ unknown_account p ∧ p_account (pi_raw q) = p_account (pi_raw p).
  Proof using Hq.
    rewrite (cp_unknown _ _ Hq). intros Hn. apply not_Forall_Exists in Hn; [|apply _].
    destruct (first_of _ _ Hn) as (be & p & af & E & Hp & Hf). exists p. split_and!; [rewrite E; apply elem_of_app; right; left|done|].
    apply (cp_account _ _ Hq be p af E); [|done]. eapply Forall_impl; [exact Hf|]. intros x Hx. simpl in Hx.
    destruct (decide (unknown_account x)); tauto.
  Qed.
  Lemma composed_balance_in b : p_balance (pi_raw q) = Some b → ∃ p, p ∈ ps ∧ p_balance (pi_raw p) = Some b.
  Proof using Hq.
    intros (be & p & af & -> & _ & Hb)%(cp_balance _ _ Hq). exists p. split; [|done]. apply elem_of_app. right. left.
  Qed.
  Lemma composed_value_in k v : value_tags (pi_comment q) !! k = Some v → ∃ p, p ∈ ps ∧ value_tags (pi_comment p) !! k = Some v.
  Proof using Hq.
    intros (be & p & af & -> & Hb & _)%(cp_values _ _ Hq). exists p. split; [|done]. apply elem_of_app. right. left.
  Qed.
End composed.

Lemma perm_agree ps ps' q q' : ps ≡ₚ ps' → composed ps q → composed ps' q' → order_free ps q q'.
Proof.
  intros Hp H H'.
  assert (unknown_account q ↔ unknown_account q') as Hu. { by rewrite (cp_unknown _ _ H), (cp_unknown _ _ H'), Hp. }
  assert (is_Some (p_balance (pi_raw q)) ↔ is_Some (p_balance (pi_raw q'))) as Hb.
  { by rewrite (composed_balance _ _ H), (composed_balance _ _ H'), Hp. }
  assert (∀ k, is_Some (value_tags (pi_comment q) !! k) ↔ is_Some (value_tags (pi_comment q') !! k)) as Hv.
  { intros k. by rewrite (composed_value _ _ H), (composed_value _ _ H'), Hp. }
  constructor; try done.
  - assert (p_status (pi_raw q) = Some Cleared ↔ p_status (pi_raw q') = Some Cleared) as H1
      by by rewrite (cp_cleared _ _ H), (cp_cleared _ _ H'), Hp.
    assert (p_status (pi_raw q) = None ↔ p_status (pi_raw q') = None) as H2
      by by rewrite (cp_no_status _ _ H), (cp_no_status _ _ H'), Hp.
    destruct (p_status (pi_raw q)) as [[]|], (p_status (pi_raw q')) as [[]|]; try done; naive_solver.
  - apply set_eq. intros t. destruct (decide (t = s2l "unknown-account")) as [->|Ht]; [exact Hu|].
    pose proof (cp_tags _ _ H t Ht) as H1. pose proof (cp_tags _ _ H' t Ht) as H2. unfold has_tag in *. rewrite H1, H2, Hp. done.
  - intros l. rewrite (composed_lines _ _ H), (composed_lines _ _ H'), Hp. done.
  - intros Ha. destruct (cp_first _ _ H) as (p & r & E & -> & _). destruct (cp_first _ _ H') as (p' & r' & E' & -> & _).
    apply Ha; [rewrite E; left|rewrite Hp, E'; left].
  - intros Ha Hn. destruct (composed_account _ _ H Hn) as (p & Hi & Hk & ->).
    rewrite Hu in Hn. destruct (composed_account _ _ H' Hn) as (p' & Hi' & Hk' & ->). rewrite <- Hp in Hi'. auto.
  - intros Ha. destruct (p_balance (pi_raw q)) as [b|] eqn:E1, (p_balance (pi_raw q')) as [b'|] eqn:E2.
    + destruct (composed_balance_in _ _ H b E1) as (p & Hi & Ep). destruct (composed_balance_in _ _ H' b' E2) as (p' & Hi' & Ep').
      rewrite <- Hp in Hi'. f_equal. by apply (Ha p p').
    + destruct (proj1 Hb) as [? ?]; [by exists b|done].
    + destruct (proj2 Hb) as [? ?]; [by exists b'|done].
    + done.
  - intros k Ha. specialize (Hv k). destruct (value_tags (pi_comment q) !! k) as [b|] eqn:E1, (value_tags (pi_comment q') !! k) as [b'|] eqn:E2.
    + destruct (composed_value_in _ _ H k b E1) as (p & Hi & Ep). destruct (composed_value_in _ _ H' k b' E2) as (p' & Hi' & Ep').
      rewrite <- Hp in Hi'. f_equal. by apply (Ha p p').
    + destruct (proj1 Hv) as [? ?]; [by exists b|done].
    + destruct (proj2 Hv) as [? ?]; [by exists b'|done].
    + done.
Qed.

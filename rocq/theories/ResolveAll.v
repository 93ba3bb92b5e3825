(** Resolving all that was handed back. *)
From Verif Require Import Base Types CommentModel MergeModel SpecBase BaseProofs MergeSpec MergeClaims
  MergeProofs MergePending MergeApply MergeBuild MergeClosed MergeLemmas MergePlaces MergeLaws MergeLaws2
  MergeLaws3 MergeLaws4 MergeReplay MergeLaws5 PropsMergeProofs EditClaims MergeEdit ResolveClaims MergeResolve
  CmdClaims CmdMerge Parts PiecesClaims Pieces PiecesOrder ResolveAllClaims.
From Coq Require Import Lia.
Local Open Scope nat_scope.

(** What is known of a posting [u] that was handed back, its original being [p],
    when the journal is [j]. *)
Record came_back (j : journal) (p u : posting_internal) : Prop := {
  cb_mergeable : mergeable p;
  cb_raw : pi_raw u = pi_raw p;
  cb_lines : lines (pi_comment u) = lines (pi_comment p);
  cb_values : value_tags (pi_comment u) = value_tags (pi_comment p);
  cb_tags : ∀ t, ¬ candidate_tag t → (has_tag u t ↔ has_tag p t);
  cb_cand : ∀ f, has_tag u (s2l "candidate-" ++ f) → ∃ i x, j_posts j !! i = Some x ∧ has_fp (jp_post x) f;
  cb_same : no_candidates u → u = p;
}.
Lemma merges_came_back ho ss : ∀ m0 un m j, hash_order_ok ho → reachable m0 → merges ho m0 ss un m → represents m j →
  ∀ tp b u, tp ∈ un → tp_posts tp !! b = Some u → ∃ p, came_back j p u.
Proof.
  induction ss as [|s ss IH]; intros m0 un m j Hho Hr Hm Hj tp b u Htp Hb.
  - inversion Hm; subst. by apply elem_of_nil in Htp.
  - apply merges_cons_inv in Hm as (m1 & u1 & un' & E & Hm & ->).
    assert (reachable m1) as Hr1 by (replace m1 with (merge ho m0 s).1 by (by rewrite E); by constructor).
    apply elem_of_app in Htp as [Htp|Htp]; [|by eapply IH].
    destruct (reachable_represents _ Hr) as (j0 & Hj0 & _).
    destruct (reachable_represents _ Hr1) as (j1 & Hj1 & _).
    destruct (origin_tagged m0 j0 ho s m1 u1 tp b u) as (orig & p & Ho & El & Hp & Hmg & Ht); try done.
    exists p. split; [done|apply Ht|apply Ht|apply Ht|apply Ht| |apply Ht].
    intros f Hf. destruct (tg_cand _ _ _ _ Ht f Hf) as (_ & i & x & Hx & Hxf & _).
    destruct (step_keeps m0 j0 ho s j1 i x) as (x1 & Hx1 & _ & Hf1); try done. { by rewrite E. }
    rewrite (merges_after _ _ _ _ _ Hm) in Hj.
    destruct (after_keeps ((ho,.) <$> ss) m1 j1 j i x1) as (x2 & Hx2 & _ & Hf2); try done.
    { apply Forall_fmap, Forall_forall. done. }
    exists i, x2. split; [done|]. by apply Hf2, Hf1.
Qed.

Section all.
  Context (m : merger) (j : journal) (Hr : reachable m) (Hj : represents m j).
  Context (un trs : list transaction_postings) (Hv : resolvable j un trs).
  Context (Hcb : ∀ tp b u, tp ∈ un → tp_posts tp !! b = Some u → ∃ p, came_back j p u).
  Local Notation Hwf := (reachable_wf m j Hr Hj).

  Lemma ra_cases a b tr r : trs !! a = Some tr → tp_posts tr !! b = Some r →
    ∃ tp u p, un !! a = Some tp ∧ tp_posts tp !! b = Some u ∧ tp_trn tr = tp_trn tp ∧ tp_date tr = tp_date tp ∧ came_back j p u ∧
      ((∃ f i x, resolves f u r ∧ ¬ no_candidates u ∧ j_posts j !! i = Some x ∧ has_fp (jp_post x) f) ∨ (no_candidates u ∧ r = u)).
  Proof using Hv Hcb.
    intros Ha Hb. destruct (Forall2_lookup_r _ _ _ _ _ (rv_edited _ _ _ Hv) Ha) as (tp & Htp & Eh & HF).
    destruct (Forall2_lookup_r _ _ _ _ _ HF Hb) as (u & Hu & Hc).
    destruct (Hcb tp b u) as [p Hp]; [by eapply elem_of_list_lookup_2|done|].
    exists tp, u, p. split_and!; try done; [unfold tp_date; by rewrite Eh|].
    destruct Hc as [[f Hf]|[Hn ->]]; [|by right]. left. pose proof Hf as (_ & _ & _ & Hcf & _).
    destruct (cb_cand _ _ _ Hp f Hcf) as (i & x & Hx & Hxf). exists f, i, x. split_and!; try done.
    intros Hn. apply (Hn _ Hcf). by exists f.
  Qed.
  Lemma un_in a b tp u : un !! a = Some tp → tp_posts tp !! b = Some u → u ∈ all_posts un.
  Proof. intros Ha Hb. apply elem_of_list_bind. exists tp. split; by eapply elem_of_list_lookup_2. Qed.
  (** The journal postings that an edited posting shares a fingerprint with. *)
  Lemma ra_hits a b tr r : trs !! a = Some tr → tp_posts tr !! b = Some r →
    length (fp_hits j r) ≤ 1 ∧ ∀ tp u f i x, un !! a = Some tp → tp_posts tp !! b = Some u → resolves f u r →
      j_posts j !! i = Some x → has_fp (jp_post x) f → fp_hits j r = [i].
  Proof using All.
    intros Ha Hb. assert (∀ tp u f i x, un !! a = Some tp → tp_posts tp !! b = Some u → resolves f u r →
      j_posts j !! i = Some x → has_fp (jp_post x) f → fp_hits j r = [i]) as H.
    { intros tp u f i x Htp Hu Hres Hx Hxf. pose proof Hres as (_ & _ & _ & Hcf & H5).
      apply NoDup_single; [apply NoDup_positions|]. split.
      - apply elem_of_fp_hits. exists x. split; [done|]. exists f. split; [done|]. split; [apply Hxf|]. apply H5. by left.
      - intros k (y & Hy & (g & Hg1 & [Hg Hgt]))%elem_of_fp_hits. apply H5 in Hgt as [->|[Hgt Hc]].
        + apply (jw_distinct _ Hwf k i (jp_post y) (jp_post x)).
          * by rewrite list_lookup_fmap, Hy.
          * by rewrite list_lookup_fmap, Hx.
          * by exists f.
        + exfalso. apply (rv_fresh _ _ _ Hv u (un_in a b tp u Htp Hu)) with (i := k).
          * intros Hn. apply (Hn _ Hcf). by exists f.
          * exists y. split; [done|]. by exists g. }
    split; [|done]. destruct (ra_cases a b tr r Ha Hb) as (tp & u & p & Htp & Hu & _ & _ & Hp & [(f & i & x & Hres & _ & Hx & Hxf)|[Hn ->]]).
    - by rewrite (H tp u f i x).
    - destruct (le_lt_dec (length (fp_hits j u)) 1) as [?|Hlt]; [done|exfalso]. apply conflicting_spec in Hlt.
      by apply (proj2 (rv_clear _ _ _ Hv tp u (elem_of_list_lookup_2 _ _ _ Htp) (elem_of_list_lookup_2 _ _ _ Hu) Hn)).
  Qed.
  Lemma ra_selects a b tr r i : trs !! a = Some tr → tp_posts tr !! b = Some r → fp_match_at j r i → selects j (tp_date tr) r i.
  Proof using All.
    intros Ha Hb Hi%fp_match_hits. apply selects_spec. unfold lookup_posting. pose proof (proj1 (ra_hits a b tr r Ha Hb)) as Hl.
    destruct (fp_hits j r) as [|k [|k' l]]; [by apply elem_of_nil in Hi| |simpl in Hl; lia].
    by apply elem_of_list_singleton in Hi as ->.
  Qed.
  Lemma ra_fp a b tr r g : trs !! a = Some tr → tp_posts tr !! b = Some r → has_fp r g →
    (∃ tp u, un !! a = Some tp ∧ tp_posts tp !! b = Some u ∧ has_fp u g) ∨ (∃ i x, j_posts j !! i = Some x ∧ has_fp (jp_post x) g).
  Proof using All.
    intros Ha Hb [Hg Hgt]. destruct (ra_cases a b tr r Ha Hb) as (tp & u & p & Htp & Hu & _ & _ & Hp & [(f & i & x & Hres & _ & Hx & Hxf)|[Hn ->]]).
    - destruct Hres as (_ & _ & _ & _ & H5). apply H5 in Hgt as [->|[Hgt _]]; [right; eauto|]. left. exists tp, u. split_and!; done.
    - left. exists tp, u. split_and!; done.
  Qed.
  Lemma ra_tags a b tr r tp u t : trs !! a = Some tr → tp_posts tr !! b = Some r → un !! a = Some tp → tp_posts tp !! b = Some u →
    ¬ candidate_tag t → has_tag u t → has_tag r t.
  Proof using All.
    intros Ha Hb Htp Hu Hnc Ht. destruct (ra_cases a b tr r Ha Hb) as (tp' & u' & p & Htp' & Hu' & _ & _ & Hp & Hc).
    simplify_eq. destruct Hc as [(f & i & x & (_ & _ & _ & _ & H5) & _)|[_ ->]]; [|done]. apply H5. by right.
  Qed.
  Lemma ra_mergeable a b tr r : trs !! a = Some tr → tp_posts tr !! b = Some r → mergeable r.
  Proof using All.
    intros Ha Hb. destruct (ra_cases a b tr r Ha Hb) as (tp & u & p & Htp & Hu & _ & _ & Hp & Hc).
    destruct (cb_mergeable _ _ _ Hp) as [(g & Hg & Hgt) Hnc]. split.
    - exists g. split; [done|]. eapply ra_tags; try done; [by apply Hnc|]. apply (cb_tags _ _ _ Hp); [by apply Hnc|done].
    - intros t Ht. destruct Hc as [(f & i & x & (_ & _ & _ & _ & H5) & _ & _ & [Hf _])|[Hn ->]]; [|by apply Hn].
      apply H5 in Ht as [->|[_ ?]]; [|done]. intros Hcand. by apply (candidate_not_fp _ Hcand).
  Qed.
  Lemma ra_acceptable : acceptable j trs.
  Proof using All.
    split.
    - intros r (tr & Hb & Ha)%elem_of_list_bind. apply elem_of_list_lookup in Ha as [a Ha]. apply elem_of_list_lookup in Hb as [b Hb].
      by eapply ra_mergeable.
    - intros n n' r r' Hn Hn' (g & Hg & Hg').
      destruct (all_posts_lookup trs n r Hn) as (a & b & tr & Ha & Hb & Hoff).
      destruct (all_posts_lookup trs n' r' Hn') as (a' & b' & tr' & Ha' & Hb' & Hoff').
      assert (a = a' ∧ b = b') as [-> ->]; [|congruence].
      assert ((∃ i x, j_posts j !! i = Some x ∧ has_fp (jp_post x) g) → a = a' ∧ b = b') as Hex.
      { intros (i & x & Hx & Hxg).
        assert (fp_match_at j r i) as M by (exists x; split; [done|]; by exists g).
        assert (fp_match_at j r' i) as M' by (exists x; split; [done|]; by exists g).
        apply (rv_one_source _ _ _ Hv a b a' b' tr tr' r r' i); try done; by eapply ra_selects. }
      destruct (ra_fp a b tr r g Ha Hb Hg) as [(tp & u & Htp & Hu & Hug)|?]; [|auto].
      destruct (ra_fp a' b' tr' r' g Ha' Hb' Hg') as [(tp' & u' & Htp' & Hu' & Hug')|?]; [|auto].
      apply (same_place un a b a' b' tp tp' u u'); try done; [apply (rv_distinct _ _ _ Hv)|by exists g].
    - intros r (tr & Hb & Ha)%elem_of_list_bind Hc%conflicting_spec. apply elem_of_list_lookup in Ha as [a Ha]. apply elem_of_list_lookup in Hb as [b Hb].
      pose proof (proj1 (ra_hits a b tr r Ha Hb)). lia.
    - intros tr r r' i k x y Htr _. apply (rv_one_trn _ _ _ Hv tr r r' i k x y Htr).
    - intros a b a' b' tr tr' r r' i Ha Hb Ha' Hb' _ _. by apply (rv_one_source _ _ _ Hv a b a' b' tr tr' r r' i).
  Qed.
  Lemma ra_kept tr : tr ∈ trs → left_out j tr = false.
  Proof using All.
    intros [a Ha]%elem_of_list_lookup. apply to_merge_spec. split.
    - intros E. destruct (Forall2_lookup_r _ _ _ _ _ (rv_edited _ _ _ Hv) Ha) as (tp & Htp & _ & HF). rewrite E in HF.
      apply Forall2_nil_inv_r in HF. by apply (rv_posts _ _ _ Hv tp (elem_of_list_lookup_2 _ _ _ Htp)).
    - intros r [b Hb]%elem_of_list_lookup Hamb.
      destruct (ra_cases a b tr r Ha Hb) as (tp & u & p & Htp & Hu & _ & Ed & Hp & [(f & i & x & Hres & _ & Hx & Hxf)|[Hn ->]]).
      + apply ambiguous_is in Hamb. unfold lookup_posting in Hamb. by rewrite (proj2 (ra_hits a b tr r Ha Hb) tp u f i x) in Hamb.
      + rewrite Ed in Hamb.
        by apply (proj1 (rv_clear _ _ _ Hv tp u (elem_of_list_lookup_2 _ _ _ Htp) (elem_of_list_lookup_2 _ _ _ Hu) Hn)).
  Qed.
  Lemma ra_choice a b tp tr u r f : un !! a = Some tp → trs !! a = Some tr → tp_posts tp !! b = Some u → tp_posts tr !! b = Some r →
    resolves f u r → ∃ i x, j_posts j !! i = Some x ∧ has_fp (jp_post x) f ∧ selects j (tp_date tr) r i.
  Proof using All.
    intros Htp Htr Hu Hrr Hf. destruct (Hcb tp b u) as [p Hp]; [by eapply elem_of_list_lookup_2|done|].
    destruct (cb_cand _ _ _ Hp f) as (i & x & Hx & Hxf); [apply Hf|]. exists i, x. split_and!; [done|done|].
    apply (ra_selects a b); [done|done|]. apply fp_match_hits. rewrite (proj2 (ra_hits a b tr r Htr Hrr) tp u f i x) by done. left.
  Qed.

  Section merged.
    Context (m3 : merger) (Hj3 : represents m3 (spec_merge j trs)) (Hr3 : reachable m3).
    Local Notation j3 := (spec_merge j trs).
    Local Notation Hvs := (proj2 (valid_set_declarative j trs) ra_acceptable).

    (** Where an edited posting is found. *)
    Lemma ra_place a tr : trs !! a = Some tr → ∃ t ls, the_places j trs !! a = Some (t, ls) ∧ length ls = length (tp_posts tr) ∧
      ∀ b p i, tp_posts tr !! b = Some p → ls !! b = Some i → placed j trs tr p t i.
    Proof using All.
      intros Ha. destruct (the_places j trs !! a) as [[t ls]|] eqn:Epl.
      - exists t, ls. split; [done|]. by apply (place_of j trs Hwf Hvs a tr t ls Ha (ra_kept tr (elem_of_list_lookup_2 _ _ _ Ha))).
      - exfalso. apply lookup_ge_None in Epl. unfold the_places in Epl. rewrite places_length in Epl. apply lookup_lt_Some in Ha. lia.
    Qed.
    Lemma ra_sub a b tr r tp u p : trs !! a = Some tr → tp_posts tr !! b = Some r → un !! a = Some tp → tp_posts tp !! b = Some u →
      mergeable p → pi_raw u = pi_raw p → lines (pi_comment u) = lines (pi_comment p) → value_tags (pi_comment u) = value_tags (pi_comment p) →
      (∀ t, ¬ candidate_tag t → (has_tag u t ↔ has_tag p t)) → ∀ x, has_all x r → has_all x p.
    Proof using All.
      intros Ha Hb Htp Hu Hmg E1 E2 E3 Ht x. destruct (ra_cases a b tr r Ha Hb) as (tp' & u' & p' & Htp' & Hu' & _ & _ & Hp & Hc).
      simplify_eq. apply has_all_sub.
      - destruct Hc as [(f & _ & _ & (E & _) & _)|[_ ->]]; congruence.
      - destruct Hc as [(f & _ & _ & (_ & E & _) & _)|[_ ->]]; congruence.
      - destruct Hc as [(f & _ & _ & (_ & _ & E & _) & _)|[_ ->]]; congruence.
      - intros s Hs. assert (¬ candidate_tag s) as Hns by by apply Hmg. eapply ra_tags; try done. by apply Ht.
      - intros Hu''. apply Ht; [intros Hx; by apply candidate_not_unknown in Hx|].
        destruct Hc as [(f & i & y & (_ & _ & _ & _ & H5) & _ & _ & [Hf _])|[_ ->]]; [|done].
        apply H5 in Hu'' as [E|[? _]]; [|done]. exfalso. rewrite <- E in Hf. by apply unknown_not_fp in Hf.
    Qed.
    Lemma ra_merged a b tr r i x : trs !! a = Some tr → tp_posts tr !! b = Some r → selects j (tp_date tr) r i → j_posts j !! i = Some x →
      j_posts j3 !! i = Some (JP (jp_trn x) (jp_date x) (merge_posting (jp_post x) r)).
    Proof using All.
      intros Ha Hb Hs Hx. destruct (ra_place a tr Ha) as (t & ls & Hpl & Hlen & H).
      assert (b < length ls) as Hlt by (rewrite Hlen; by eapply lookup_lt_Some).
      apply lookup_lt_is_Some in Hlt as [k Hk]. apply selects_spec in Hs.
      destruct (H b r k Hb Hk) as [[(y & Hy & Ev & Ht & _ & Hn)|(_ & Ev & _)]]; [|congruence].
      assert (k = i) as -> by congruence. assert (y = x) as -> by congruence. by rewrite Ht.
    Qed.
    Lemma ra_others i x : j_posts j !! i = Some x →
      (∀ a b tr r, trs !! a = Some tr → tp_posts tr !! b = Some r → ¬ selects j (tp_date tr) r i) → j_posts j3 !! i = Some x.
    Proof using All.
      intros Hx Hno. rewrite spec_merge_closed. cbn [j_posts]. apply lookup_app_l_Some. rewrite list_lookup_imap, Hx. simpl. f_equal.
      unfold absorb. replace (merged_into j trs i) with (@nil posting_internal); [by destruct x|]. symmetry. apply elem_of_nil_inv.
      intros p (tr & [a Ha]%elem_of_list_lookup & _ & [b Hb]%elem_of_list_lookup & E)%elem_of_merged_into.
      apply (Hno a b tr p Ha Hb). by apply selects_spec.
    Qed.
    Lemma ra_new a b tr r : trs !! a = Some tr → tp_posts tr !! b = Some r → matches_nothing j (tp_date tr) r →
      ∃ i t, length (j_posts j) ≤ i ∧ j_posts j3 !! i = Some (JP t (tp_date tr) r).
    Proof using All.
      intros Ha Hb Hs. destruct (ra_place a tr Ha) as (t & ls & Hpl & Hlen & H).
      assert (b < length ls) as Hlt by (rewrite Hlen; by eapply lookup_lt_Some).
      apply lookup_lt_is_Some in Hlt as [k Hk]. apply matches_nothing_spec in Hs.
      destruct (H b r k Hb Hk) as [[(y & Hy & Ev & Ht & _ & Hn)|(Hle & Ev & Hn)]]; [congruence|eauto].
    Qed.
    (** The originals are recognised. *)
    Lemma ra_originals ho origs : hash_order_ok ho → fps_distinct (all_posts origs) →
      (∀ o p, o ∈ origs → p ∈ tp_posts o → mergeable p) →
      (∀ o, o ∈ origs → ∃ tp, tp ∈ un ∧ equal_but_candidates o tp) → merge ho m3 origs = (m3, Ok []).
    Proof using All.
      intros Hho Hd Hmg Hor.
      assert (∀ c o, origs !! c = Some o → ∃ a t ls, the_places j trs !! a = Some (t, ls) ∧
        ∀ b p, tp_posts o !! b = Some p → ∃ i x tp u, ls !! b = Some i ∧ j_posts j3 !! i = Some x ∧ jp_trn x = t ∧ has_all (jp_post x) p ∧
          un !! a = Some tp ∧ tp_posts tp !! b = Some u ∧ (∀ g, has_fp u g ↔ has_fp p g)) as Hfind.
      { intros c o Hc. assert (o ∈ origs) as Ho by by eapply elem_of_list_lookup_2. destruct (Hor o Ho) as (tp & Htp & Eh & HF).
        apply elem_of_list_lookup in Htp as [a Ha].
        destruct (Forall2_lookup_l _ _ _ _ _ (rv_edited _ _ _ Hv) Ha) as (tr & Htr & _ & HR).
        destruct (ra_place a tr Htr) as (t & ls & Hpl & Hlen & H). exists a, t, ls. split; [done|].
        intros b p Hp. destruct (Forall2_lookup_l _ _ _ _ _ HF Hp) as (u & Hu & E1 & E2 & E3 & Ht).
        destruct (Forall2_lookup_l _ _ _ _ _ HR Hu) as (r & Hb & _).
        assert (b < length ls) as Hlt by (rewrite Hlen; by eapply lookup_lt_Some).
        apply lookup_lt_is_Some in Hlt as [k Hk].
        pose proof (ra_sub a b tr r tp u p Htr Hb Ha Hu (Hmg o p Ho (elem_of_list_lookup_2 _ _ _ Hp)) E1 E2 E3 Ht) as Hsub.
        assert (∀ g, has_fp u g ↔ has_fp p g) as Hfp.
        { intros g. unfold has_fp. split; intros [Hg Hgt]; (split; [done|]); apply Ht; try done; intros Hcand; by apply (candidate_not_fp g). }
        destruct (H b r k Hb Hk) as [[(y & Hy & Ev & Hyt & _ & Hn)|(_ & Ev & Hn)]];
          exists k; eexists; exists tp, u; (split_and!; [done|exact Hn|done| |done|done|done]); simpl; apply Hsub;
          [apply has_all_merged|apply has_all_self]. }
      pose proof (NoDup_places j trs Hwf Hvs) as Hnd.
      set (loc := λ c b, match origs !! c with Some o => match tp_posts o !! b with Some p => default 0 (head (fp_hits j3 p)) | None => 0 end | None => 0 end).
      set (trn := λ c, match j_posts j3 !! loc c 0 with Some x => jp_trn x | None => 0 end).
      assert (∀ c b o p i x, origs !! c = Some o → tp_posts o !! b = Some p → j_posts j3 !! i = Some x → has_all (jp_post x) p → loc c b = i) as Hloc.
      { intros c b o p i x Hc Hb Hx Hh. unfold loc. rewrite Hc, Hb.
        assert (fp_hits j3 p = [i]) as ->; [|done].
        pose proof (reachable_wf m3 j3 Hr3 Hj3) as Hwf3.
        destruct (Hmg o p (elem_of_list_lookup_2 _ _ _ Hc) (elem_of_list_lookup_2 _ _ _ Hb)) as [(f & Hf & Hft) _].
        assert (∀ g, has_fp p g → has_fp (jp_post x) g) as Hsub.
        { intros g [Hg Hgt]. split; [done|]. apply (ha_tags _ _ Hh); [done|]. intros ->. by apply unknown_not_fp. }
        apply NoDup_single; [apply NoDup_positions|]. split.
        - apply elem_of_fp_hits. exists x. split; [done|]. exists f. split; [by apply Hsub|done].
        - intros k (y & Hy & (g & Hg1 & Hg2))%elem_of_fp_hits.
          apply (jw_distinct _ Hwf3 k i (jp_post y) (jp_post x)).
          + by rewrite list_lookup_fmap, Hy.
          + by rewrite list_lookup_fmap, Hx.
          + exists g. split; [done|]. by apply Hsub. }
      apply (contained_merge m3 j3 Hr3 Hj3 origs trn loc); [| | | |done].
      - intros o Ho E. destruct (Hor o Ho) as (tp & Htp & _ & HF). rewrite E in HF. apply Forall2_nil_inv_l in HF.
        by apply (rv_posts _ _ _ Hv tp Htp).
      - intros p (o & Hp & Ho)%elem_of_list_bind. by eapply Hmg.
      - intros c b o p Hc Hp. destruct (Hfind c o Hc) as (a & t & ls & Hpl & H).
        destruct (H b p Hp) as (i & x & tp & u & Hi & Hx & Ht & Hh & _). rewrite (Hloc c b o p i x) by done.
        exists x. split_and!; [done| |done].
        destruct (tp_posts o !! 0) as [p0|] eqn:Hp0.
        + destruct (H 0 p0 Hp0) as (i0 & x0 & _ & _ & _ & Hx0 & Ht0 & Hh0 & _). unfold trn. rewrite (Hloc c 0 o p0 i0 x0) by done.
          by rewrite Hx0, Ht0, Ht.
        + apply lookup_ge_None in Hp0. apply lookup_lt_Some in Hp. lia.
      - intros c b c' b' o o' Hc Hb Hc' Hb' E.
        apply lookup_lt_is_Some in Hb as [p Hp]. apply lookup_lt_is_Some in Hb' as [p' Hp'].
        destruct (Hfind c o Hc) as (a & t & ls & Hpl & H). destruct (H b p Hp) as (i & x & tp & u & Hi & Hx & Ht & Hh & Htp & Hu & Hf).
        destruct (Hfind c' o' Hc') as (a' & t' & ls' & Hpl' & H'). destruct (H' b' p' Hp') as (i' & x' & tp' & u' & Hi' & Hx' & Ht' & Hh' & Htp' & Hu' & Hf').
        rewrite (Hloc c b o p i x), (Hloc c' b' o' p' i' x') in E by done. subst i'.
        assert (a = a') as <-.
        { eapply (NoDup_bind_pos snd (the_places j trs) a a' (t, ls) (t', ls') i); try done; simpl; by eapply elem_of_list_lookup_2. }
        rewrite Hpl in Hpl'. injection Hpl' as <- <-. assert (b = b') as <-.
        { apply (NoDup_lookup ls b b' i); [|done|done]. by apply (NoDup_bind_elem snd (the_places j trs) a (t, ls)). }
        rewrite Htp in Htp'. injection Htp' as <-. rewrite Hu in Hu'. injection Hu' as <-.
        destruct (Hmg o p (elem_of_list_lookup_2 _ _ _ Hc) (elem_of_list_lookup_2 _ _ _ Hp)) as [(g & Hg & Hgt) _].
        apply (same_place origs c b c' b o o' p p' Hd Hc Hp Hc' Hp'). exists g. split; [done|]. by apply Hf', Hf.
    Qed.
  End merged.
End all.

(** The order of the transactions does not matter. *)
Lemma resolvable_perm j un trs trs' : trs ≡ₚ trs' → resolvable j un trs → ∃ un', un ≡ₚ un' ∧ resolvable j un' trs'.
Proof.
  intros Hp [H1 H2 H3 H4 H5 H6 H7 H8]. apply Forall2_flip in H1. destruct (Permutation_Forall2 Hp H1) as (un' & Hu & H1'). apply Forall2_flip in H1'.
  exists un'. split; [done|]. split.
  - done.
  - intros tp. rewrite <- Hu. apply H2.
  - by rewrite <- (all_posts_perm _ _ Hu).
  - intros u. rewrite <- (all_posts_perm _ _ Hu). apply H4.
  - intros tp u. rewrite <- Hu. apply H5.
  - intros tr r r' i i' x x'. rewrite <- Hp. apply H6.
  - intros a b a' b' tr tr' r r' i Ha Hb Ha' Hb' Hi Hi'. symmetry in Hp. apply Permutation_inj in Hp as (_ & f & Hf & Hl).
    rewrite Hl in Ha, Ha'. destruct (H7 (f a) b (f a') b' tr tr' r r' i) as [E ->]; try done. split; [|done]. by apply (inj f).
  - by eapply told_apart_perm.
Qed.

Lemma resolve_all m0 ho ss un m j trs gs ho' :
  reachable m0 → hash_order_ok ho → merges ho m0 ss un m → represents m j → hash_order_ok ho' →
  resolvable j un trs → mjoin gs ≡ₚ trs →
  ∃ m3 j3, merges ho' m gs [] m3 ∧ represents m3 j3 ∧ all_resolved j un trs j3 ∧
    (∀ origs ho'', hash_order_ok ho'' → fps_distinct (all_posts origs) → (∀ o p, o ∈ origs → p ∈ tp_posts o → mergeable p) →
       (∀ o, o ∈ origs → ∃ tp, tp ∈ un ∧ equal_but_candidates o tp) → merge ho'' m3 origs = (m3, Ok [])).
Proof.
  intros Hr0 Hho Hm Hj Hho' Hv Hp. assert (reachable m) as Hr by exact (merges_reachable _ _ _ _ _ Hho Hr0 Hm).
  pose proof (merges_came_back ho ss m0 un m j Hho Hr0 Hm Hj) as Hcb.
  symmetry in Hp. destruct (resolvable_perm j un trs (mjoin gs) Hp Hv) as (un' & Hu & Hv').
  assert (∀ tp b u, tp ∈ un' → tp_posts tp !! b = Some u → ∃ p, came_back j p u) as Hcb'.
  { intros tp b u. rewrite <- Hu. apply Hcb. }
  pose proof (proj2 (valid_set_declarative j (mjoin gs)) (ra_acceptable m j Hr Hj un' (mjoin gs) Hv' Hcb')) as Hvs.
  destruct (accepted_whole m j ho' (mjoin gs) Hr Hj Hho' Hvs) as (m3 & E3 & Hj3).
  { intros tr. by apply (ra_kept m j Hr Hj un' (mjoin gs) Hv' Hcb'). }
  assert (reachable m3) as Hr3 by (replace m3 with (merge ho' m (mjoin gs)).1 by (by rewrite E3); by constructor).
  exists m3, (spec_merge j (mjoin gs)). split_and!; [|done| |].
  - eapply (pieces ho' ho' gs m j m3); try done. apply (rv_apart _ _ _ Hv').
  - split.
  + intros a tp tr b u r f Ha Htr Hub Hb Hf. by apply (ra_choice m j Hr Hj un trs Hv Hcb a b tp tr u r f).
  + intros tr r i x Htr [b Hb]%elem_of_list_lookup. rewrite Hp in Htr. apply elem_of_list_lookup in Htr as [a Ha].
    by apply (ra_merged m j Hr Hj un' (mjoin gs) Hv' Hcb' m3 Hj3 Hr3 a b).
  + intros tr r Htr [b Hb]%elem_of_list_lookup. rewrite Hp in Htr. apply elem_of_list_lookup in Htr as [a Ha].
    by apply (ra_new m j Hr Hj un' (mjoin gs) Hv' Hcb' m3 Hj3 Hr3 a b).
  + intros i x Hx Hno. apply (ra_others m j Hr Hj un' (mjoin gs) Hv' Hcb' m3 Hj3 Hr3); [done|].
    intros a b tr r Ha Hb. apply Hno; [rewrite Hp|]; by eapply elem_of_list_lookup_2.
  - intros origs ho'' Hho'' Hd Hmg Hor. apply (ra_originals m j Hr Hj un' (mjoin gs) Hv' Hcb' m3 Hj3 Hr3); try done.
    intros o Ho. destruct (Hor o Ho) as (tp & Htp & He). exists tp. by rewrite <- Hu.
Qed.

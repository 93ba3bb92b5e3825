(** Merging one set in several pieces. *)
From Verif Require Import Base Types CommentModel MergeModel SpecBase BaseProofs MergeSpec MergeProofs MergePending
  MergeApply MergeClosed MergeClaims MergeLemmas MergeBuild MergeLaws MergeLaws2 MergeLaws3 HistoryOrder MergeDays CmdClaims PiecesClaims.
From Coq Require Import Lia.
Local Open Scope nat_scope.

Lemma soft_fold l : ∀ x q, soft_match (foldl merge_posting x l) q → soft_match x q.
Proof. induction l as [|p l IH]; intros x q H; [done|]. simpl in H. apply IH in H. by eapply soft_merge. Qed.
Lemma fold_fp l f : ∀ x, has_fp (foldl merge_posting x l) f ↔ has_fp x f ∨ ∃ p, p ∈ l ∧ has_fp p f.
Proof.
  induction l as [|p l IH]; intros x; cbn [foldl].
  - split; [by left|]. intros [H|(p & H%elem_of_nil & _)]; done.
  - rewrite IH, merge_posting_fp. setoid_rewrite elem_of_cons. naive_solver.
Qed.

Section split.
  Context (j : journal) (A B : list transaction_postings).
  Context (Hv : valid_set j (A ++ B)).
  Context (Hall : ∀ tp, tp ∈ A ++ B → left_out j tp = false).
  Context (Hap : ∀ tp tp', tp ∈ A → tp' ∈ B → ¬ mistaken j tp tp').
  Local Notation j1 := (spec_merge j A).

  Lemma posts_of_A tp p : tp ∈ A → p ∈ tp_posts tp → p ∈ all_posts A.
  Proof. intros. apply elem_of_list_bind. eauto. Qed.
  Lemma no_share p q : p ∈ all_posts A → q ∈ all_posts B → ¬ share_fp p q.
  Proof using Hv.
    intros [i Hi]%elem_of_list_lookup [k Hk]%elem_of_list_lookup Hs.
    pose proof (vs_distinct _ _ Hv) as Hd. rewrite all_posts_app in Hd.
    pose proof (lookup_lt_Some _ _ _ Hi) as Hlt.
    assert (i = length (all_posts A) + k) as E; [|lia].
    apply (Hd _ _ p q); [by apply lookup_app_l_Some| |done]. rewrite lookup_app_r by lia.
    by replace (_ + k - _) with k by lia.
  Qed.
  (** What each posting of the journal is after the first piece. *)
  Lemma at_j1 i y : j_posts j1 !! i = Some y →
    (∃ x, j_posts j !! i = Some x ∧ y = absorb (merged_into j A) i x) ∨
    (∃ tp, tp ∈ A ∧ jp_post y ∈ tp_posts tp ∧ lookup_posting j (tp_date tp) (jp_post y) = VNew ∧ jp_date y = tp_date tp).
  Proof.
    rewrite spec_merge_closed. cbn [j_posts]. intros [H|[_ H]]%lookup_app_Some.
    - left. rewrite list_lookup_imap in H. destruct (j_posts j !! i) as [x|]; simplify_eq/=. eauto.
    - right. apply elem_of_list_lookup_2 in H. apply elem_of_new_posts in H as (tp & ? & ? & ? & ? & ?). eauto.
  Qed.
  Lemma old_j1 i x : j_posts j !! i = Some x → j_posts j1 !! i = Some (absorb (merged_into j A) i x).
  Proof.
    intros H. rewrite spec_merge_closed. cbn [j_posts]. apply lookup_app_l_Some.
    by rewrite list_lookup_imap, H.
  Qed.
  Lemma fp_same q i : q ∈ all_posts B → fp_match_at j1 q i ↔ fp_match_at j q i.
  Proof using Hv.
    intros Hq. split.
    - intros (y & Hy & f & Hf & Hqf). destruct (at_j1 i y Hy) as [(x & Hx & ->)|(tp & Htp & Hp & _)].
      + simpl in Hf. apply fold_fp in Hf as [Hf|(p & Hp & Hf)].
        * exists x. split; [done|]. by exists f.
        * apply elem_of_merged_into in Hp as (tp & Htp & _ & Hp & _). exfalso.
          apply (no_share p q); [by eapply posts_of_A|done|by exists f].
      + exfalso. apply (no_share (jp_post y) q); [by eapply posts_of_A|done|by exists f].
    - intros (x & Hx & f & Hf & Hqf). exists (absorb (merged_into j A) i x). split; [by apply old_j1|].
      exists f. split; [|done]. simpl. apply fold_fp. by left.
  Qed.
  Lemma dest_not_A tp q i : tp ∈ B → q ∈ tp_posts tp → lookup_posting j (tp_date tp) q = VMerge i → merged_into j A i = [].
  Proof using Hv Hall.
    intros Htp Hq Hl. apply elem_of_nil_inv. intros p (tp' & Htp' & Hlo & Hp & Hl')%elem_of_merged_into.
    pose proof (vs_dests_distinct _ _ Hv) as Hn. unfold all_dests in Hn. rewrite bind_app in Hn.
    apply NoDup_app in Hn as (_ & Hn & _). apply (Hn i).
    - apply elem_of_list_bind. exists tp'. rewrite Hlo. split; [|done]. unfold dests, verdicts.
      apply elem_of_list_omap. exists (VMerge i). split; [|done]. apply elem_of_list_fmap. eauto.
    - apply elem_of_list_bind. exists tp. rewrite (Hall tp) by (apply elem_of_app; by right). split; [|done]. unfold dests, verdicts.
      apply elem_of_list_omap. exists (VMerge i). split; [|done]. apply elem_of_list_fmap. eauto.
  Qed.
  Lemma soft_old tp q i : tp ∈ B → q ∈ tp_posts tp → (∀ k, ¬ fp_match_at j q k) →
    soft_match_at j1 (tp_date tp) q i → soft_match_at j (tp_date tp) q i.
  Proof using Hv Hap.
    intros Htp Hq Hno (y & Hy & Hd & Hs). destruct (at_j1 i y Hy) as [(x & Hx & ->)|(tp' & Htp' & Hp & Hl & Hd')].
    - exists x. split_and!; [done|done|]. by apply soft_fold in Hs.
    - exfalso. apply (Hap tp' tp Htp' Htp). exists (jp_post y), q. split_and!; try done; [congruence|].
      by apply matches_nothing_spec.
  Qed.
  (** Looking up the postings of the second piece is not affected by the first. *)
  Lemma lookup_same tp q : tp ∈ B → q ∈ tp_posts tp →
    lookup_posting j1 (tp_date tp) q = lookup_posting j (tp_date tp) q.
  Proof using Hv Hall Hap.
    intros Htp Hq. assert (q ∈ all_posts B) as HqB by (apply elem_of_list_bind; eauto).
    destruct (lookup_posting j (tp_date tp) q) as [i| |l|] eqn:El.
    - apply selects_spec. pose proof (dest_not_A tp q i Htp Hq El) as Hi. apply selects_spec in El. destruct El as [[H1 H2]|(H1 & (x & Hx & Hd & Hs) & H3)].
      + left. setoid_rewrite fp_same; [|done..]. done.
      + right. split_and!.
        * intros k. rewrite fp_same by done. apply H1.
        * exists (absorb (merged_into j A) i x). split; [by apply old_j1|]. unfold absorb. by rewrite Hi.
        * intros k Hk. apply H3. by eapply soft_old.
    - apply matches_nothing_spec. apply matches_nothing_spec in El as [H1 H2]. split.
      + intros k. rewrite fp_same by done. apply H1.
      + intros k Hk. eapply H2. by eapply soft_old.
    - exfalso. assert (left_out j tp = false) as [_ Hn]%to_merge_spec by (apply Hall, elem_of_app; by right).
      apply (Hn q Hq). apply ambiguous_is. by rewrite El.
    - exfalso. pose proof (vs_no_conflict _ _ Hv tp q) as H. unfold lookup_posting in El.
      destruct (fp_hits j q) as [|? [|? ?]]; [by destruct (soft_hits j (tp_date tp) q) as [|? [|? ?]]|done|].
      feed specialize H; [apply elem_of_app; by right|done|]. simpl in H. lia.
  Qed.
  Lemma verdicts_same tp : tp ∈ B → verdicts j1 tp = verdicts j tp.
  Proof using Hv Hall Hap.
    intros Htp. unfold verdicts. apply list_fmap_ext. intros k q Hq%elem_of_list_lookup_2. by apply lookup_same.
  Qed.
  Lemma left_out_same tp : tp ∈ B → left_out j1 tp = left_out j tp.
  Proof using Hv Hall Hap. intros Htp. unfold left_out. by rewrite verdicts_same. Qed.
  Lemma dests_same tp : tp ∈ B → dests j1 tp = dests j tp.
  Proof using Hv Hall Hap. intros Htp. unfold dests. by rewrite verdicts_same. Qed.
  Lemma dest_trns_same tp : tp ∈ B →
    (dests j1 tp ≫= (λ i, option_list (jp_trn <$> j_posts j1 !! i))) = (dests j tp ≫= (λ i, option_list (jp_trn <$> j_posts j !! i))).
  Proof using Hv Hall Hap.
    intros Htp. rewrite dests_same by done.
    pose proof (dests_valid j tp) as Hlt. induction (dests j tp) as [|i l IH]; [done|]. rewrite !bind_cons. f_equal.
    - destruct (lookup_lt_is_Some_2 (j_posts j) i) as [x Hx]; [apply Hlt; left|].
      by rewrite Hx, (old_j1 _ _ Hx).
    - apply IH. intros k Hk. apply Hlt. by right.
  Qed.
  Lemma apply_same l : (∀ tp, tp ∈ l → tp ∈ B) → ∀ J, foldl (apply_trn j1) J l = foldl (apply_trn j) J l.
  Proof using Hv Hall Hap.
    induction l as [|tp l IH]; intros Hl J; [done|]. cbn [foldl].
    assert (apply_trn j1 J tp = apply_trn j J tp) as ->.
    { assert (tp ∈ B) as Htp by (apply Hl; left). unfold apply_trn.
      rewrite left_out_same, dest_trns_same, verdicts_same by done. done. }
    apply IH. intros. apply Hl. by right.
  Qed.
  Lemma spec_merge_split : spec_merge j1 B = spec_merge j (A ++ B).
  Proof using Hv Hall Hap. unfold spec_merge at 1 3. rewrite foldl_app. by apply apply_same. Qed.
  Lemma valid_split : valid_set j A ∧ valid_set j1 B.
  Proof using Hv Hall Hap.
    split; [eapply valid_set_sublist; [|exact Hv]; by apply sublist_inserts_r|].
    assert (valid_set j B) as HvB by (eapply valid_set_sublist; [|exact Hv]; by apply sublist_inserts_l).
    destruct HvB as [H1 H2 H3 H4 H5]. split; [done|done|..].
    - intros tp q Htp Hq. destruct (decide (length (fp_hits j1 q) ≤ 1)) as [|Hn]; [done|]. exfalso.
      assert (2 ≤ length (fp_hits j1 q)) as Hc by lia. apply conflicting_spec in Hc as (i & k & Hne & Hi & Hk).
      assert (q ∈ all_posts B) as HqB by (apply elem_of_list_bind; eauto). rewrite fp_same in Hi, Hk by done.
      assert (conflicting j q) as Hc by by exists i, k. apply conflicting_spec in Hc. specialize (H3 tp q Htp Hq). lia.
    - intros tp i k x y Htp Hlo Hi Hk Hx Hy. rewrite left_out_same in Hlo by done. rewrite dests_same in Hi, Hk by done.
      assert (∀ i x, i ∈ dests j tp → j_posts j1 !! i = Some x → ∃ x0, j_posts j !! i = Some x0 ∧ jp_trn x = jp_trn x0) as Ht.
      { intros i' x' Hi' Hx'. destruct (lookup_lt_is_Some_2 (j_posts j) i') as [x0 Hx0]; [by eapply dests_valid|].
        rewrite (old_j1 _ _ Hx0) in Hx'. simplify_eq/=. eauto. }
      destruct (Ht i x Hi Hx) as (x0 & Hx0 & ->). destruct (Ht k y Hk Hy) as (y0 & Hy0 & ->). by apply (H4 tp i k).
    - replace (all_dests j1 B) with (all_dests j B); [done|]. unfold all_dests.
      assert (∀ l, (∀ tp, tp ∈ l → tp ∈ B) → (l ≫= λ tp, if left_out j tp then [] else dests j tp) = (l ≫= λ tp, if left_out j1 tp then [] else dests j1 tp)) as H; [|by apply H].
      induction l as [|tp l IH]; intros Hl; [done|]. rewrite !bind_cons. rewrite left_out_same, dests_same by (apply Hl; left). f_equal.
      apply IH. intros. apply Hl. by right.
  Qed.
  Lemma mistaken_same tp tp' : tp ∈ B → tp' ∈ B → mistaken j1 tp tp' → mistaken j tp tp'.
  Proof using Hv Hall Hap.
    intros H H' (q & p & Hq & Hp & Hd & Hn & Hno & Hs). exists q, p. split_and!; try done.
    - apply matches_nothing_spec. rewrite <- lookup_same by done. by apply matches_nothing_spec.
    - intros i Hi. apply (Hno i). apply fp_same; [apply elem_of_list_bind; eauto|done].
  Qed.
End split.

Lemma nothing_back m j ho tps m' : reachable m → represents m j → hash_order_ok ho → merge ho m tps = (m', Ok []) →
  ∀ tp, tp ∈ tps → left_out j tp = false.
Proof.
  intros Hr Hj Hho Hm tp Htp. destruct (merge_inv m j Hr Hj ho tps m' [] Hho Hm) as (_ & _ & _ & Hun).
  destruct (left_out j tp) eqn:E; [|done]. apply Forall2_nil_inv_r in Hun. exfalso.
  assert (tp ∈ filter (λ tp, left_out j tp = true) tps) as H by by apply elem_of_list_filter.
  rewrite Hun in H. by apply elem_of_nil in H.
Qed.
Lemma accepted_whole m j ho tps : reachable m → represents m j → hash_order_ok ho →
  valid_set j tps → (∀ tp, tp ∈ tps → left_out j tp = false) →
  ∃ m', merge ho m tps = (m', Ok []) ∧ represents m' (spec_merge j tps).
Proof.
  intros Hr Hj Hho Hv Hall. destruct (merge_accepts ho Hho m j tps Hj (reachable_wf m j Hr Hj) Hv) as (_ & m' & un & E & Hj' & Hun).
  exists m'. rewrite E. split; [|done]. do 2 f_equal.
  replace (filter (λ tp, left_out j tp = true) tps) with (@nil transaction_postings) in Hun; [by apply Forall2_nil_inv_l in Hun|].
  symmetry. apply elem_of_nil_inv. intros tp [H1 H2]%elem_of_list_filter. by rewrite (Hall tp H2) in H1.
Qed.

Lemma pieces ho ho' gs : ∀ m j m', reachable m → represents m j → hash_order_ok ho → hash_order_ok ho' →
  merge ho m (mjoin gs) = (m', Ok []) → told_apart j (mjoin gs) → merges ho' m gs [] m'.
Proof.
  induction gs as [|A gs IH]; intros m j m' Hr Hj Hho Hho' Hm Hap.
  - destruct (merge_inv m j Hr Hj ho _ m' [] Hho Hm) as (_ & _ & Hj' & _).
    replace m' with m; [apply merges_nil|]. by eapply represents_merger.
  - change (mjoin (A :: gs)) with (A ++ mjoin gs) in *.
    pose proof (nothing_back m j ho _ m' Hr Hj Hho Hm) as Hall.
    destruct (merge_inv m j Hr Hj ho _ m' [] Hho Hm) as (Hv & _ & Hj' & _).
    assert (∀ tp tp', tp ∈ A → tp' ∈ mjoin gs → ¬ mistaken j tp tp') as Hap'.
    { intros tp tp' [a Ha]%elem_of_list_lookup [b Hb]%elem_of_list_lookup. pose proof (lookup_lt_Some _ _ _ Ha).
      apply (Hap a (length A + b)); [by apply lookup_app_l_Some| |lia].
      rewrite lookup_app_r by lia. by replace (length A + b - length A) with b by lia. }
    destruct (valid_split j A (mjoin gs) Hv Hall Hap') as [HvA HvB].
    destruct (accepted_whole m j ho' A Hr Hj Hho' HvA) as (m1 & E1 & Hj1).
    { intros tp Htp. apply Hall, elem_of_app. by left. }
    assert (reachable m1) as Hr1. { replace m1 with (merge ho' m A).1 by by rewrite E1. by constructor. }
    destruct (accepted_whole m1 _ ho (mjoin gs) Hr1 Hj1 Hho HvB) as (m2 & E2 & Hj2).
    { intros tp Htp. rewrite (left_out_same j A (mjoin gs)) by done. apply Hall, elem_of_app. by right. }
    rewrite (spec_merge_split j A (mjoin gs)) in Hj2 by done.
    assert (m2 = m') as -> by by eapply represents_merger.
    change (@nil transaction_postings) with (@nil transaction_postings ++ []) at 1. eapply merges_cons; [exact E1|].
    apply (IH m1 _ m' Hr1 Hj1 Hho Hho' E2). intros a a' tp tp' Ha Ha' Hne Hmis.
    apply (Hap (length A + a) (length A + a') tp tp').
    + rewrite lookup_app_r by lia. by replace (length A + a - length A) with a by lia.
    + rewrite lookup_app_r by lia. by replace (length A + a' - length A) with a' by lia.
    + lia.
    + eapply mistaken_same; [done|done|done| | |done]; by eapply elem_of_list_lookup_2.
Qed.

(** The order of the transactions in a set. *)
From Verif Require Import Base Types CommentModel MergeModel SpecBase BaseProofs MergeSpec MergeProofs MergePending
  MergeApply MergeClosed MergeClaims MergeLemmas MergeBuild MergeLaws MergeLaws2 MergeLaws3 MergeLaws4 CmdClaims PiecesClaims Pieces.
From Coq Require Import Lia.
Local Open Scope nat_scope.

(** New postings for transaction [t] that existed before. *)
Definition extra (j : journal) (t : nat) (tp : transaction_postings) : list posting_internal :=
  match dest_trns j tp with t' :: _ => if decide (t' = t) then news_from (todo_of j tp) else [] | [] => [] end.

Lemma filter_jps t d t' ps : jp_post <$> filter (λ x, jp_trn x = t) (JP t' d <$> ps) = if decide (t' = t) then ps else [].
Proof.
  induction ps as [|p ps IH]; csimpl; [by destruct (decide _)|]. destruct (decide (t' = t)) as [E|E].
  - rewrite filter_cons_True by done. csimpl. by rewrite IH.
  - by rewrite filter_cons_False by done.
Qed.
Lemma todo_left_out j tp : left_out j tp = true → todo_of j tp = [].
Proof. unfold todo_of. by intros ->. Qed.
Lemma fresh_news j tp : fresh j tp = true → (∀ p, p ∈ tp_posts tp → lookup_posting j (tp_date tp) p ≠ VConflict) →
  news_from (todo_of j tp) = tp_posts tp.
Proof.
  unfold fresh. intros [E1%negb_true_iff E2%bool_decide_eq_true]%andb_true_iff Hnc. pose proof E1 as [_ Hna]%to_merge_spec.
  unfold news_from, todo_of. rewrite E1. unfold dests, verdicts in *.
  induction (tp_posts tp) as [|p ps IH]; [done|]. csimpl. csimpl in E2.
  destruct (lookup_posting j (tp_date tp) p) as [i| |l|] eqn:El; csimpl; csimpl in E2; [done| | |].
  - f_equal. apply IH; [done| |]; intros; [apply Hnc|apply Hna]; by right.
  - exfalso. apply (Hna p); [left|]. apply ambiguous_is. by rewrite El.
  - exfalso. apply (Hnc p); [left|done].
Qed.
Lemma new_posts_old j t tps : t < length (j_trns j) → ∀ n, length (j_trns j) ≤ n →
  jp_post <$> filter (λ x, jp_trn x = t) (new_posts j n tps) = tps ≫= extra j t.
Proof.
  intros Ht. induction tps as [|tp tps IH]; intros n Hn; [done|]. cbn [new_posts]. rewrite filter_app, fmap_app, bind_cons.
  rewrite IH by (destruct (fresh j tp); lia). f_equal. unfold new_of, extra, target. rewrite filter_jps.
  destruct (dest_trns j tp) as [|t' l]; [|done]. by rewrite decide_False by lia.
Qed.
Lemma new_posts_new j tps : journal_wf j → (∀ tp, tp ∈ tps → ∀ p, p ∈ tp_posts tp → lookup_posting j (tp_date tp) p ≠ VConflict) →
  ∀ n, length (j_trns j) ≤ n →
  (∀ x, x ∈ new_posts j n tps → jp_trn x < length (j_trns j) ∨ n ≤ jp_trn x) ∧
  imap (λ i h, TP h (jp_post <$> filter (λ x, jp_trn x = n + i) (new_posts j n tps))) (new_trns j tps) =
  filter (λ tp, is_true (fresh j tp)) tps.
Proof.
  intros Hwf. induction tps as [|tp tps IH]; intros Hnc n Hn; [split; [by intros x ?%elem_of_nil|done]|].
  feed specialize IH; [intros; eapply Hnc; [by right|done]|]. cbn [new_posts].
  assert (∀ t, t ∈ dest_trns j tp → t < length (j_trns j)) as Hdt.
  { intros t (i & x & Hi & Hx & <-)%elem_of_dest_trns. apply (jw_parent _ Hwf). by eapply elem_of_list_lookup_2. }
  destruct (fresh j tp) eqn:Ef.
  - destruct (IH (S n)) as [IH1 IH2]; [lia|]. pose proof Ef as Ef'. unfold fresh in Ef'. apply andb_true_iff in Ef' as [El%negb_true_iff Ed%bool_decide_eq_true].
    assert (dest_trns j tp = []) as Edt. { unfold dest_trns. by rewrite Ed. }
    assert (new_of j n tp = JP n (tp_date tp) <$> tp_posts tp) as En.
    { unfold new_of, target. rewrite Edt, fresh_news; [done|done|]. intros. eapply Hnc; [left|done]. }
    split.
    + intros x [Hx|Hx]%elem_of_app.
      * rewrite En in Hx. apply elem_of_list_fmap in Hx as (p & -> & _). simpl. right. lia.
      * apply IH1 in Hx. lia.
    + unfold new_trns. rewrite filter_cons_True by (by rewrite Ef). rewrite fmap_cons, imap_cons. f_equal.
      * rewrite filter_app, fmap_app, En, Nat.add_0_r, filter_jps, decide_True by done.
        replace (filter _ (new_posts j (S n) tps)) with (@nil jpost); [rewrite app_nil_r; by destruct tp|].
        symmetry. apply elem_of_nil_inv. intros x [E Hx]%elem_of_list_filter. apply IH1 in Hx. lia.
      * etrans; [|exact IH2]. apply imap_ext. intros i h _. cbn [compose]. f_equal. rewrite filter_app, fmap_app, En, filter_jps, decide_False by lia.
        simpl. do 2 f_equal. apply list_filter_iff. intros x. by rewrite Nat.add_succ_r.
  - destruct (IH n) as [IH1 IH2]; [lia|].
    assert (∀ x, x ∈ new_of j n tp → jp_trn x < length (j_trns j)) as Hold.
    { intros x (p & -> & Hp)%elem_of_list_fmap. simpl. unfold target. destruct (dest_trns j tp) as [|t l] eqn:E.
      - exfalso. destruct (left_out j tp) eqn:El; [by rewrite todo_left_out in Hp; [apply elem_of_nil in Hp|]|].
        apply fresh_dest_trns in El. rewrite E in El. congruence.
      - apply Hdt. left. }
    split.
    + intros x [Hx|Hx]%elem_of_app; [left; by apply Hold|auto].
    + unfold new_trns. rewrite filter_cons_False by (by rewrite Ef). etrans; [|exact IH2]. apply imap_ext. intros i h _. f_equal.
      rewrite filter_app, fmap_app. replace (filter _ (new_of j n tp)) with (@nil jpost); [done|].
      symmetry. apply elem_of_nil_inv. intros x [E Hx]%elem_of_list_filter. apply Hold in Hx. lia.
Qed.

Lemma valid_no_conflict j tps : valid_set j tps → ∀ tp, tp ∈ tps → ∀ p, p ∈ tp_posts tp → lookup_posting j (tp_date tp) p ≠ VConflict.
Proof.
  intros Hv tp Htp p Hp E. pose proof (vs_no_conflict _ _ Hv tp p Htp Hp) as H. unfold lookup_posting in E.
  destruct (fp_hits j p) as [|? [|? ?]]; [by destruct (soft_hits j (tp_date tp) p) as [|? [|? ?]]|done|]. simpl in H. lia.
Qed.
(** The transactions after a merge. *)
Lemma trns_closed j tps : journal_wf j → valid_set j tps →
  journal_trns (spec_merge j tps) =
  imap (λ t h, TP h ((jp_post <$> filter (λ x, jp_trn x = t) (imap (absorb (merged_into j tps)) (j_posts j))) ++ (tps ≫= extra j t))) (j_trns j)
  ++ filter (λ tp, is_true (fresh j tp)) tps.
Proof.
  intros Hwf Hv. rewrite spec_merge_closed. unfold journal_trns. cbn [j_trns j_posts]. rewrite imap_app. f_equal.
  - apply imap_ext. intros t h Ht%lookup_lt_Some. f_equal. rewrite filter_app, fmap_app. f_equal. by apply new_posts_old.
  - destruct (new_posts_new j tps Hwf (valid_no_conflict j tps Hv) (length (j_trns j))) as [_ H]; [done|].
    etrans; [|exact H]. apply imap_ext. intros i h _. cbn [compose]. f_equal. rewrite filter_app, fmap_app.
    replace (filter _ (imap _ _)) with (@nil jpost); [done|].
    symmetry. apply elem_of_nil_inv. intros x [E Hx]%elem_of_list_filter. apply elem_of_lookup_imap in Hx as (k & y & -> & Hy).
    simpl in E. apply elem_of_list_lookup_2 in Hy. apply (jw_parent _ Hwf) in Hy. lia.
Qed.

Section order.
  Context (j : journal) (A B : list transaction_postings) (Hp : A ≡ₚ B).
  Context (Hwf : journal_wf j) (Hv : valid_set j A).

  Lemma valid_perm : valid_set j B.
  Proof using Hp Hv.
    destruct Hv as [H1 H2 H3 H4 H5]. split.
    - intros p. rewrite <- (all_posts_perm _ _ Hp). apply H1.
    - by rewrite <- (all_posts_perm _ _ Hp).
    - intros tp p. rewrite <- Hp. apply H3.
    - intros tp i k x y. rewrite <- Hp. apply H4.
    - unfold all_dests in *. by rewrite <- Hp.
  Qed.
  Lemma merged_into_perm i : merged_into j B i = merged_into j A i.
  Proof using Hp Hv.
    pose proof (merged_into_le1 j A i (vs_dests_distinct _ _ Hv)) as Hl.
    assert (merged_into j A i ≡ₚ merged_into j B i) as H by (unfold merged_into, merged_from; by rewrite Hp).
    destruct (merged_into j A i) as [|p [|q l]]; [by apply Permutation_nil in H|by apply Permutation_length_1_inv in H|simpl in Hl; lia].
  Qed.
  Lemma trns_perm : same_up_to_order (journal_trns (spec_merge j A)) (journal_trns (spec_merge j B)).
  Proof using Hp Hv Hwf.
    rewrite (trns_closed j A Hwf Hv), (trns_closed j B Hwf valid_perm).
    eexists. split; [apply Permutation_app; [reflexivity|]; apply filter_Permutation; symmetry; exact Hp|].
    apply Forall2_app; [|by apply Forall_Forall2_diag, Forall_forall].
    apply Forall2_same_length_lookup. split; [by rewrite !imap_length|].
    intros t a b Ha Hb. rewrite list_lookup_imap in Ha, Hb. destruct (j_trns j !! t) as [h|]; simplify_eq/=. split; [done|].
    cbn [tp_posts]. apply Permutation_app; [|by rewrite Hp].
    replace (imap (absorb (merged_into j B)) (j_posts j)) with (imap (absorb (merged_into j A)) (j_posts j)); [done|].
    apply imap_ext. intros i x _. unfold absorb. by rewrite merged_into_perm.
  Qed.
End order.

Lemma same_up_to_order_sort l k : same_up_to_order l k →
  same_up_to_order (stable_sort (by_key tp_date) l) (stable_sort (by_key tp_date) k).
Proof.
  intros (k' & Hk & HF). destruct (Permutation_Forall2 (symmetry (stable_sort_perm (by_key tp_date) l)) HF) as (k2 & Hk2 & HF2).
  exists k2. split; [|done]. by rewrite stable_sort_perm, Hk.
Qed.
Lemma set_order m j ho ho' A B m1 un : reachable m → represents m j → hash_order_ok ho → hash_order_ok ho' →
  A ≡ₚ B → merge ho m A = (m1, Ok un) →
  ∃ m2 un2, merge ho' m B = (m2, Ok un2) ∧
    (∃ un2', un2 ≡ₚ un2' ∧ Forall2 equal_but_candidates un un2') ∧
    (∀ hb hb' out out', hash_order_ok hb → hash_order_ok hb' → build hb m1 = Ok out → build hb' m2 = Ok out' → same_up_to_order out out').
Proof.
  intros Hr Hj Hho Hho' Hp Hm. pose proof (reachable_wf m j Hr Hj) as Hwf.
  destruct (merge_inv m j Hr Hj ho A m1 un Hho Hm) as (Hv & Hwf1 & Hj1 & Hun).
  destruct (merge_accepts ho' Hho' m j B Hj Hwf (valid_perm j A B Hp Hv)) as (Hwf2 & m2 & un2 & E & Hj2 & Hun2).
  exists m2, un2. split_and!; [done|..].
  - assert (filter (λ tp, left_out j tp = true) B ≡ₚ filter (λ tp, left_out j tp = true) A) as Hf by by rewrite Hp.
    destruct (Permutation_Forall2 Hf Hun2) as (un2' & Hu & HF). exists un2'. split; [done|].
    eapply Forall2_agree; [|exact Hun|exact HF]. intros. by eapply returned_as_agree.
  - intros hb hb' out out' Hb Hb' ->%(build_inv hb m1 (spec_merge j A)) ->%(build_inv hb' m2 (spec_merge j B)); [|done..].
    apply same_up_to_order_sort. by apply trns_perm.
Qed.

Lemma told_apart_perm j A B : A ≡ₚ B → told_apart j A → told_apart j B.
Proof.
  intros Hp H a a' tp tp' Ha Ha' Hne. symmetry in Hp. apply Permutation_inj in Hp as (_ & f & Hf & Hl).
  rewrite Hl in Ha, Ha'. apply (H _ _ _ _ Ha Ha'). intros E. by apply Hne, (inj f).
Qed.
Lemma regrouped m j ho ho' tps gs m1 : reachable m → represents m j → hash_order_ok ho → hash_order_ok ho' →
  merge ho m tps = (m1, Ok []) → told_apart j tps → mjoin gs ≡ₚ tps →
  ∃ m2, merges ho' m gs [] m2 ∧
    ∀ hb hb' out out', hash_order_ok hb → hash_order_ok hb' → build hb m1 = Ok out → build hb' m2 = Ok out' → same_up_to_order out out'.
Proof.
  intros Hr Hj Hho Hho' Hm Hap Hp. symmetry in Hp.
  destruct (set_order m j ho ho' tps (mjoin gs) m1 [] Hr Hj Hho Hho' Hp Hm) as (m2 & un2 & E & (un2' & Hu & HF) & Hb).
  apply Forall2_nil_inv_l in HF as ->. apply Permutation_nil_r in Hu as ->.
  exists m2. split; [|done]. eapply (pieces ho' ho' gs m j); [done..|]. by eapply told_apart_perm.
Qed.

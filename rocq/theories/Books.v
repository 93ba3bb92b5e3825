(** Books that balance (C130). *)
From Verif Require Import Base Types CommentModel MergeModel SpecBase BaseProofs MergeSpec MergeProofs MergePending
  MergeApply MergeClosed MergeClaims MergeLemmas MergeBuild MergeLaws MergeLaws2 MergeLaws3 MergeLaws4 CmdClaims PiecesClaims Pieces PiecesOrder BooksClaims.
From Coq Require Import Lia QArith Lqa.
Local Open Scope nat_scope.

Definition is_new (j : journal) (tp : transaction_postings) (p : posting_internal) : bool :=
  match lookup_posting j (tp_date tp) p with VNew => true | _ => false end.
Lemma is_new_spec j tp p : is_new j tp p = true ↔ matches_nothing j (tp_date tp) p.
Proof. rewrite matches_nothing_spec. unfold is_new. by destruct (lookup_posting _ _ _). Qed.
Lemma news_todo j tp : left_out j tp = false → news_from (todo_of j tp) = filter (λ p, is_new j tp p = true) (tp_posts tp).
Proof.
  intros El. unfold news_from, todo_of. rewrite El. unfold verdicts. induction (tp_posts tp) as [|p ps IH]; [done|]. csimpl.
  destruct (decide (is_new j tp p = true)) as [E|E].
  - rewrite filter_cons_True by done. unfold is_new in E. destruct (lookup_posting _ _ _); try done. csimpl. by rewrite IH.
  - rewrite filter_cons_False by done. unfold is_new in E. by destruct (lookup_posting _ _ _).
Qed.
(** The input transactions merged into transaction [t]. *)
Definition goes_to (j : journal) (t : nat) (tp : transaction_postings) : bool :=
  negb (left_out j tp) && match dest_trns j tp with t' :: _ => bool_decide (t' = t) | [] => false end.
Lemma extra_value j t tps : tps ≫= extra j t = filter (λ tp, goes_to j t tp = true) tps ≫= λ tp, filter (λ p, is_new j tp p = true) (tp_posts tp).
Proof.
  induction tps as [|tp tps IH]; [done|]. rewrite bind_cons, IH. unfold extra, goes_to at 2.
  destruct (left_out j tp) eqn:El.
  - rewrite filter_cons_False by (unfold goes_to; by rewrite El). unfold todo_of. rewrite El. destruct (dest_trns j tp); [done|]. by destruct (decide _).
  - destruct (dest_trns j tp) as [|t' l] eqn:Ed; [by rewrite filter_cons_False by (unfold goes_to; by rewrite El, Ed)|].
    destruct (decide (t' = t)) as [E|E].
    + rewrite filter_cons_True by (unfold goes_to; rewrite El, Ed; cbn [negb andb]; by apply bool_decide_eq_true). rewrite bind_cons. f_equal. by apply news_todo.
    + by rewrite filter_cons_False by (unfold goes_to; rewrite El, Ed; cbn [negb andb]; by rewrite bool_decide_eq_true).
Qed.

Lemma bind_app_perm {A B} (f g : A → list B) l : (l ≫= λ x, f x ++ g x) ≡ₚ (l ≫= f) ++ (l ≫= g).
Proof. induction l as [|x l IH]; [done|]. rewrite !bind_cons, IH. solve_Permutation. Qed.
Lemma bind_one {B} (b : B) (t0 : nat) ts : NoDup ts → (ts ≫= λ t, if decide (t0 = t) then [b] else []) = if decide (t0 ∈ ts) then [b] else [].
Proof.
  induction 1 as [|t ts Hn Hnd IH]; [by rewrite decide_False by apply not_elem_of_nil|]. rewrite bind_cons, IH.
  destruct (decide (t0 = t)) as [<-|Hne].
  - rewrite (decide_False (P := t0 ∈ ts)) by done. by rewrite decide_True by left.
  - destruct (decide (t0 ∈ ts)); [by rewrite decide_True by (by right)|]. rewrite decide_False; [done|]. by intros [?|?]%elem_of_cons.
Qed.
Lemma bind_none {A B} (f : A → list B) l : (∀ x, f x = []) → l ≫= f = [].
Proof. intros H. induction l as [|x l IH]; [done|]. by rewrite bind_cons, H, IH. Qed.
Lemma bind_none_in {A B} (f : A → list B) l : (∀ x, x ∈ l → f x = []) → l ≫= f = [].
Proof.
  intros H. induction l as [|x l IH]; [done|]. rewrite bind_cons, H by left. apply IH. intros y Hy. apply H. by right.
Qed.
Lemma imap_bind {A B C} (f : nat → A → B) (g : B → list C) (F : nat → list C) l : (∀ t x, g (f t x) = F t) → imap f l ≫= g = seq 0 (length l) ≫= F.
Proof.
  intros H. assert (∀ n, imap (λ i, f (n + i)) l ≫= g = seq n (length l) ≫= F) as Hg.
  { induction l as [|x l IH]; intros n; [done|]. rewrite imap_cons, bind_cons. cbn [length seq]. rewrite bind_cons, Nat.add_0_r, H. f_equal.
    rewrite <- IH. f_equal. apply imap_ext. intros i y _. unfold compose. by rewrite Nat.add_succ_r. }
  apply (Hg 0).
Qed.
Lemma goes_spec j n tps : journal_wf j → n = length (j_trns j) →
  (seq 0 n ≫= λ t, filter (λ tp, goes_to j t tp = true) tps) ++ filter (λ tp, is_true (fresh j tp)) tps ≡ₚ filter (λ tp, left_out j tp = false) tps.
Proof.
  intros Hwf ->. induction tps as [|tp tps IH]; [by rewrite app_nil_r; induction (seq _ _)|].
  assert (∀ t, filter (λ tp, goes_to j t tp = true) (tp :: tps) = (if goes_to j t tp then [tp] else []) ++ filter (λ tp, goes_to j t tp = true) tps) as E.
  { intros t. destruct (goes_to j t tp) eqn:E; [by rewrite filter_cons_True|]. rewrite filter_cons_False; [done|]. by rewrite E. }
  rewrite (list_bind_ext (λ t, filter (λ tp, goes_to j t tp = true) (tp :: tps)) (λ t, (if goes_to j t tp then [tp] else []) ++ filter (λ tp, goes_to j t tp = true) tps) _ _ E eq_refl).
  rewrite bind_app_perm.
  destruct (left_out j tp) eqn:El.
  - assert (∀ t, goes_to j t tp = false) as G by (intros t; unfold goes_to; by rewrite El).
    rewrite (bind_none (λ t, if goes_to j t tp then [tp] else [])) by (intros t; by rewrite G).
    rewrite !filter_cons_False; [done|by rewrite El|]. unfold fresh. by rewrite El.
  - rewrite (filter_cons_True (λ tp, left_out j tp = false)) by done.
    destruct (dest_trns j tp) as [|t0 l] eqn:Ed.
    + assert (∀ t, goes_to j t tp = false) as G by (intros t; unfold goes_to; by rewrite El, Ed).
      rewrite (bind_none (λ t, if goes_to j t tp then [tp] else [])) by (intros t; by rewrite G).
      assert (fresh j tp = true) as Hf. { pose proof (fresh_dest_trns _ _ El) as H. rewrite Ed in H. by rewrite H. }
      rewrite (filter_cons_True (λ tp, is_true (fresh j tp))) by (by rewrite Hf). rewrite <- IH. solve_Permutation.
    + assert (fresh j tp = false) as Hf. { pose proof (fresh_dest_trns _ _ El) as H. rewrite Ed in H. by rewrite H. }
      rewrite (filter_cons_False (λ tp, is_true (fresh j tp))) by (by rewrite Hf). rewrite <- IH.
      assert (∀ t, (if goes_to j t tp then [tp] else []) = if decide (t0 = t) then [tp] else []) as G.
      { intros t. unfold goes_to. rewrite El, Ed. cbn [negb andb]. case_bool_decide; [by rewrite decide_True|by rewrite decide_False]. }
      rewrite (list_bind_ext _ _ (seq 0 (length (j_trns j))) _ G eq_refl).
      rewrite bind_one by apply NoDup_seq. rewrite decide_True; [done|]. apply elem_of_seq.
      assert (t0 ∈ dest_trns j tp) as (i & x & Hi & Hx & <-)%elem_of_dest_trns by (rewrite Ed; left).
      apply elem_of_list_lookup_2, (jw_parent _ Hwf) in Hx. lia.
Qed.

Lemma absorb_value c t L ps : posts_value c (jp_post <$> filter (λ x, jp_trn x = t) (imap (absorb L) ps)) = posts_value c (jp_post <$> filter (λ x, jp_trn x = t) ps).
Proof.
  symmetry. apply posts_value_refines. revert L. induction ps as [|x ps IH]; intros L; [constructor|].
  change (imap (absorb L) (x :: ps)) with (absorb L 0 x :: imap (absorb (L ∘ S)) ps).
  destruct (decide (jp_trn x = t)) as [E|E].
  - rewrite !filter_cons_True by done. constructor; [apply foldl_refines|apply IH].
  - rewrite !filter_cons_False by done. apply IH.
Qed.
Lemma fresh_new j tps : journal_wf j → valid_set j tps → ∀ tp, tp ∈ tps → fresh j tp = true → becomes_new j tp.
Proof.
  intros Hwf Hv tp Htp Hf. pose proof (fresh_news j tp Hf (valid_no_conflict j tps Hv tp Htp)) as Hn.
  assert (left_out j tp = false) as El. { unfold fresh in Hf. by destruct (left_out j tp). }
  split; [by apply (proj2 (to_merge_spec j tp) El)|]. intros p Hp. rewrite (news_todo j tp El) in Hn. rewrite <- Hn in Hp.
  apply elem_of_list_filter in Hp as [Hp _]. by apply is_new_spec.
Qed.
Lemma goes_not_new j tp t : goes_to j t tp = true → ∃ p, p ∈ tp_posts tp ∧ ¬ matches_nothing j (tp_date tp) p.
Proof.
  unfold goes_to. intros [El%negb_true_iff Hd]%andb_true_iff. destruct (dest_trns j tp) as [|t' l] eqn:Ed; [done|].
  assert (t' ∈ dest_trns j tp) as (i & x & Hi & _)%elem_of_dest_trns by (rewrite Ed; left).
  unfold dests, verdicts in Hi. apply elem_of_list_omap in Hi as (v & Hv & Hi). apply elem_of_list_fmap in Hv as (p & -> & Hp).
  exists p. split; [done|]. rewrite matches_nothing_spec. by destruct (lookup_posting _ _ _).
Qed.

Section books.
  Context (m : merger) (j : journal) (Hr : reachable m) (Hj : represents m j).
  Let Hwf : journal_wf j := reachable_wf m j Hr Hj.

  Lemma grown_sum ho ho1 ho2 tps m' un out out' :
    hash_order_ok ho → hash_order_ok ho1 → hash_order_ok ho2 →
    merge ho m tps = (m', Ok un) → build ho1 m = Ok out → build ho2 m' = Ok out' →
    ∃ (gs : list grown) (news : list transaction_postings) (lo : transaction_postings → bool) (new : transaction_postings → posting_internal → bool),
      (∀ tp, lo tp = true ↔ ¬ to_merge j tp) ∧ (∀ tp p, new tp p = true ↔ matches_nothing j (tp_date tp) p) ∧
      out ≡ₚ g_before <$> gs ∧ out' ≡ₚ (g_after <$> gs) ++ news ∧
      filter (λ tp, lo tp = false) tps ≡ₚ (gs ≫= g_inputs) ++ news ∧
      (∀ tp, tp ∈ news → becomes_new j tp) ∧ (∀ g tp, g ∈ gs → tp ∈ g_inputs g → ¬ becomes_new j tp) ∧
      ∀ g, g ∈ gs → tp_trn (g_after g) = tp_trn (g_before g) ∧
        ∀ c, (posts_value c (tp_posts (g_after g)) == posts_value c (tp_posts (g_before g)) + selected_value new c (g_inputs g))%Q.
  Proof.
    intros Hho Hho1 Hho2 Hm Hb Hb'. destruct (merge_inv m j Hr Hj ho tps m' un Hho Hm) as (Hv & Hwf' & Hj' & Hun).
    apply (build_inv ho1 m j) in Hb as ->; [|done..]. apply (build_inv ho2 m' (spec_merge j tps)) in Hb' as ->; [|done..].
    set (post t := jp_post <$> filter (λ x, jp_trn x = t) (j_posts j)).
    set (post' t := (jp_post <$> filter (λ x, jp_trn x = t) (imap (absorb (merged_into j tps)) (j_posts j))) ++ (tps ≫= extra j t)).
    set (gs := imap (λ t h, Grown (TP h (post t)) (filter (λ tp, goes_to j t tp = true) tps) (TP h (post' t))) (j_trns j)).
    exists gs, (filter (λ tp, is_true (fresh j tp)) tps), (left_out j), (is_new j).
    split. { intros tp. rewrite to_merge_spec. by destruct (left_out j tp). }
    split. { intros tp p. apply is_new_spec. }
    split. { rewrite stable_sort_perm. unfold gs. rewrite fmap_imap. done. }
    split. { rewrite stable_sort_perm, trns_closed by done. unfold gs. rewrite fmap_imap. done. }
    split. { rewrite <- (goes_spec j _ tps Hwf eq_refl). unfold gs. by rewrite (imap_bind _ g_inputs (λ t, filter (λ tp, goes_to j t tp = true) tps)). }
    split. { intros tp [Hf Htp]%elem_of_list_filter. eapply fresh_new; [done|done|done|]. by destruct (fresh j tp). }
    split. { intros g tp Hg Htp. unfold gs in Hg. apply elem_of_lookup_imap in Hg as (t & h & -> & _). cbn [g_inputs] in Htp.
      apply elem_of_list_filter in Htp as [Hg _]. destruct (goes_not_new _ _ _ Hg) as (p & Hp & Hn). intros [_ H]. by apply Hn, H. }
    intros g Hg. unfold gs in Hg. apply elem_of_lookup_imap in Hg as (t & h & -> & _). cbn [g_after g_before g_inputs tp_trn tp_posts].
    split; [done|]. intros c. unfold post', post. rewrite posts_value_app, absorb_value, extra_value. done.
  Qed.
  Lemma selected_split (sel : transaction_postings → posting_internal → bool) c tps :
    (selected_value sel c tps + selected_value (λ tp p, negb (sel tp p)) c tps == posts_value c (all_posts tps))%Q.
  Proof.
    unfold selected_value, all_posts. induction tps as [|tp tps IH]; [done|]. rewrite !bind_cons, !posts_value_app, <- IH.
    assert (∀ ps, posts_value c (filter (λ p, sel tp p = true) ps) + posts_value c (filter (λ p, negb (sel tp p) = true) ps) == posts_value c ps)%Q as H; [|rewrite <- (H (tp_posts tp)); ring].
    clear IH.
    induction ps as [|p ps IHp]; [done|]. destruct (sel tp p) eqn:E.
    - rewrite filter_cons_True, filter_cons_False by (by rewrite E). unfold posts_value in *. cbn [foldr]. rewrite <- IHp. ring.
    - rewrite filter_cons_False, filter_cons_True by (by rewrite E). unfold posts_value in *. cbn [foldr]. rewrite <- IHp. ring.
  Qed.
  Lemma selected_app sel c l k : (selected_value sel c (l ++ k) == selected_value sel c l + selected_value sel c k)%Q.
  Proof. unfold selected_value. rewrite bind_app. apply posts_value_app. Qed.
  Lemma posts_value_perm c l k : l ≡ₚ k → (posts_value c l == posts_value c k)%Q.
  Proof.
    unfold posts_value. induction 1; cbn [foldr]; [done|by rewrite IHPermutation|ring|]. etrans; [exact IHPermutation1|exact IHPermutation2].
  Qed.
  Lemma selected_perm sel c l k : l ≡ₚ k → (selected_value sel c l == selected_value sel c k)%Q.
  Proof. intros H. apply posts_value_perm. by rewrite H. Qed.
  Lemma grown_matched (new : transaction_postings → posting_internal → bool) g c :
    (∀ tp, tp ∈ g_inputs g → in_balance tp) →
    (posts_value c (tp_posts (g_after g)) == posts_value c (tp_posts (g_before g)) + selected_value new c (g_inputs g))%Q →
    (posts_value c (tp_posts (g_after g)) == posts_value c (tp_posts (g_before g)) - selected_value (λ tp p, negb (new tp p)) c (g_inputs g))%Q.
  Proof.
    intros Hb ->. assert (selected_value new c (g_inputs g) + selected_value (λ tp p, negb (new tp p)) c (g_inputs g) == 0)%Q as H.
    { rewrite selected_split. unfold all_posts. induction (g_inputs g) as [|tp tps IH]; [done|]. rewrite bind_cons, posts_value_app, (Hb tp (elem_of_list_here _ _) c).
      rewrite IH; [done|]. intros tp' ?. apply Hb. by right. }
    lra.
  Qed.
  Lemma total_value ho ho1 ho2 tps m' un out out' :
    hash_order_ok ho → hash_order_ok ho1 → hash_order_ok ho2 →
    merge ho m tps = (m', Ok un) → build ho1 m = Ok out → build ho2 m' = Ok out' →
    ∃ (lo : transaction_postings → bool) (new : transaction_postings → posting_internal → bool),
      (∀ tp, lo tp = true ↔ ¬ to_merge j tp) ∧ (∀ tp p, new tp p = true ↔ matches_nothing j (tp_date tp) p) ∧
      ∀ c, (posts_value c (all_posts out') == posts_value c (all_posts out) + selected_value new c (filter (λ tp, lo tp = false) tps))%Q.
  Proof.
    intros Hho Hho1 Hho2 Hm Hb Hb'.
    destruct (grown_sum ho ho1 ho2 tps m' un out out') as (gs & news & lo & new & Hlo & Hnew & Ho & Ho' & Hp & Hn & Hg & Hv); try done.
    exists lo, new. split; [done|]. split; [done|]. intros c.
    rewrite (posts_value_perm c (all_posts out') (all_posts ((g_after <$> gs) ++ news))) by (unfold all_posts; by rewrite Ho').
    rewrite (posts_value_perm c (all_posts out) (all_posts (g_before <$> gs))) by (unfold all_posts; by rewrite Ho).
    rewrite (selected_perm new c _ _ Hp), selected_app.
    assert (posts_value c (all_posts news) == selected_value new c news)%Q as Hnews.
    { unfold selected_value, all_posts. clear -Hn Hnew. induction news as [|tp news IH]; [done|]. rewrite !bind_cons, !posts_value_app, IH.
      - replace (filter _ (tp_posts tp)) with (tp_posts tp); [done|]. symmetry.
        assert (∀ p, p ∈ tp_posts tp → new tp p = true) as H by (intros p Hp; apply Hnew; by apply (Hn tp); [left|]).
        induction (tp_posts tp) as [|p ps IHp]; [done|]. rewrite filter_cons_True by (apply H; left). f_equal. apply IHp. intros q Hq. apply H. by right.
      - intros tp' ?. apply Hn. by right. }
    assert (posts_value c (all_posts (g_after <$> gs)) == posts_value c (all_posts (g_before <$> gs)) + selected_value new c (gs ≫= g_inputs))%Q as Hgs.
    { clear -Hv. unfold all_posts. induction gs as [|g gs IH]; [done|]. rewrite !fmap_cons, !bind_cons, !posts_value_app, selected_app, IH.
      - destruct (Hv g) as [_ H]; [left|]. rewrite H. ring.
      - intros g' ?. apply Hv. by right. }
    unfold all_posts in *. rewrite bind_app, posts_value_app, Hnews, Hgs. ring.
  Qed.
  Lemma stays_in_balance ho ho1 ho2 tps m' un out out' :
    hash_order_ok ho → hash_order_ok ho1 → hash_order_ok ho2 →
    merge ho m tps = (m', Ok un) → build ho1 m = Ok out → build ho2 m' = Ok out' →
    (∀ tp, tp ∈ tps → to_merge j tp → in_balance tp ∧ all_or_none j tp) →
    (∀ tp, tp ∈ out → in_balance tp) → ∀ tp, tp ∈ out' → in_balance tp.
  Proof.
    intros Hho Hho1 Hho2 Hm Hb Hb' Hin Hout tp Htp.
    destruct (grown_sum ho ho1 ho2 tps m' un out out') as (gs & news & lo & new & Hlo & Hnew & Ho & Ho' & Hp & Hn & Hg & Hv); try done.
    assert (∀ tp, tp ∈ (gs ≫= g_inputs) ++ news → tp ∈ tps ∧ to_merge j tp) as Hsel.
    { intros tp0 H. rewrite <- Hp in H. apply elem_of_list_filter in H as [Hl H]. split; [done|].
      apply to_merge_spec. destruct (left_out j tp0) eqn:E; [|done]. rewrite (proj2 (Hlo tp0)) in Hl; [done|]. rewrite to_merge_spec. by rewrite E. }
    rewrite Ho' in Htp. apply elem_of_app in Htp as [(g & -> & Hgin)%elem_of_list_fmap|Htp].
    - intros c. destruct (Hv g Hgin) as [_ ->]. assert (posts_value c (tp_posts (g_before g)) == 0)%Q as -> by (apply Hout; rewrite Ho; by apply elem_of_list_fmap_1).
      rewrite Qplus_0_l. unfold selected_value. rewrite bind_none_in; [done|]. intros tp0 Htp0.
      destruct (Hsel tp0) as [Ht Hm0]; [apply elem_of_app; left; apply elem_of_list_bind; eauto|].
      destruct (Hin tp0 Ht Hm0) as [_ [H|H]].
      + exfalso. apply (Hg g tp0 Hgin Htp0). split; [apply Hm0|done].
      + apply elem_of_nil_inv. intros p [Hpn Hpin]%elem_of_list_filter. apply Hnew in Hpn. by eapply H.
    - destruct (Hsel tp) as [Ht Hm0]; [apply elem_of_app; by right|]. by apply Hin.
  Qed.
End books.
Lemma balanced_run_built m runs m' : balanced_run m runs m' → reachable m →
  (∀ ho out, hash_order_ok ho → build ho m = Ok out → ∀ tp, tp ∈ out → in_balance tp) →
  ∀ ho out, hash_order_ok ho → build ho m' = Ok out → ∀ tp, tp ∈ out → in_balance tp.
Proof.
  induction 1 as [|ho s m m1 un runs m2 j Hho Hm Hj Hs H IH]; [done|]. intros Hr Hb. apply IH.
  - change m1 with (m1, Ok un).1 at 1. rewrite <- Hm. by constructor.
  - intros ho2 out2 Hho2 Hb2. destruct (never_panics m j Hr Hj ho s Hho) as [_ [out Ho]].
    eapply (stays_in_balance m j Hr Hj ho ho ho2 s m1 un out out2); try done. by apply (Hb ho).
Qed.
Lemma balanced_merges m runs m' ho : balanced_run m runs m' → Forall (λ r, r.1 = ho) runs → ∃ un, merges ho m runs.*2 un m'.
Proof.
  induction 1 as [|ho' s m m1 un runs m2 j Hho Hm Hj Hs H IH]; intros Ho; [exists []; constructor|].
  apply Forall_cons in Ho as [E Ho]. simpl in E. subst ho'. destruct (IH Ho) as [un' H']. exists (un ++ un'). rewrite fmap_cons. by econstructor.
Qed.

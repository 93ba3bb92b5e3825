(** The same payments from two sources. *)
From Verif Require Import Base Types CommentModel MergeModel SpecBase BaseProofs MergeSpec MergeClaims
  MergeProofs MergePending MergeApply MergeBuild MergeClosed MergeLemmas MergePlaces MergeLaws MergeLaws2
  MergeLaws3 MergeLaws4 MergeReplay MergeLaws5 EditClaims MergeEdit CmdClaims PiecesClaims Pieces PiecesOrder TwinClaims.
From Coq Require Import Lia.
Local Open Scope nat_scope.

Definition flat (n : nat) (A : list transaction_postings) : list jpost :=
  mjoin (imap (λ a tp, JP (n + a) (tp_date tp) <$> tp_posts tp) A).
Definition off (A : list transaction_postings) (a : nat) : nat := length (all_posts (take a A)).
Lemma flat_cons n tp A : flat n (tp :: A) = (JP n (tp_date tp) <$> tp_posts tp) ++ flat (S n) A.
Proof.
  unfold flat. rewrite imap_cons. cbn [mjoin list_join]. f_equal; [by rewrite Nat.add_0_r|].
  f_equal. apply imap_ext. intros i x _. cbn [compose]. by rewrite Nat.add_succ_r.
Qed.
Lemma flat_at n A a b tp p : A !! a = Some tp → tp_posts tp !! b = Some p →
  flat n A !! (off A a + b) = Some (JP (n + a) (tp_date tp) p).
Proof.
  revert n a. induction A as [|t A IH]; intros n a Ha Hb; [done|]. rewrite flat_cons. destruct a as [|a]; simplify_eq/=.
  - rewrite Nat.add_0_r. apply lookup_app_l_Some. by rewrite list_lookup_fmap, Hb.
  - unfold off. cbn [take]. change (all_posts (t :: take a A)) with (tp_posts t ++ all_posts (take a A)). rewrite app_length.
    rewrite lookup_app_r by (rewrite fmap_length; lia). rewrite fmap_length.
    replace (length (tp_posts t) + length (all_posts (take a A)) + b - length (tp_posts t)) with (off A a + b) by (unfold off; lia).
    rewrite (IH (S n) a Ha Hb). do 2 f_equal. lia.
Qed.
Lemma flat_inv n A i x : flat n A !! i = Some x →
  ∃ a b tp p, A !! a = Some tp ∧ tp_posts tp !! b = Some p ∧ x = JP (n + a) (tp_date tp) p ∧ i = off A a + b.
Proof.
  revert n i. induction A as [|t A IH]; intros n i Hi; [done|]. rewrite flat_cons in Hi.
  apply lookup_app_Some in Hi as [Hi|[Hl Hi]].
  - rewrite list_lookup_fmap in Hi. destruct (tp_posts t !! i) as [p|] eqn:E; simplify_eq/=.
    exists 0, i, t, p. split_and!; [done|done|f_equal; lia|done].
  - rewrite fmap_length in *. apply IH in Hi as (a & b & tp & p & Ha & Hb & -> & Hi).
    exists (S a), b, tp, p. split_and!; [done|done|f_equal; lia|].
    unfold off. cbn [take]. change (all_posts (t :: take a A)) with (tp_posts t ++ all_posts (take a A)). rewrite app_length.
    unfold off in Hi. lia.
Qed.
Lemma flat_filter_nil n t k M A : t < n →
  jp_post <$> filter (λ x, jp_trn x = t) (imap (λ i, absorb M (k + i)) (flat n A)) = [].
Proof.
  intros Ht. replace (filter _ _) with (@nil jpost); [done|]. symmetry. apply elem_of_nil_inv.
  intros x [E Hx]%elem_of_list_filter. apply elem_of_lookup_imap in Hx as (i & y & -> & Hy).
  apply flat_inv in Hy as (a & b & tp & p & _ & _ & -> & _). simpl in E. lia.
Qed.
Lemma flat_filter t M A : ∀ n k,
  jp_post <$> filter (λ x, jp_trn x = n + t) (imap (λ i, absorb M (k + i)) (flat n A)) =
  match A !! t with Some tp => imap (λ b p, foldl merge_posting p (M (k + off A t + b))) (tp_posts tp) | None => [] end.
Proof.
  revert t. induction A as [|tp A IH]; intros t n k; [done|].
  rewrite flat_cons, imap_app, filter_app, fmap_app, imap_fmap, fmap_length.
  assert (∀ B, jp_post <$> filter (λ x, jp_trn x = n + t)
    (imap ((λ i, absorb M (k + i)) ∘ (λ j, length B + j)) (flat (S n) A)) =
    jp_post <$> filter (λ x, jp_trn x = n + t) (imap (λ i, absorb M ((k + length (B : list posting_internal)) + i)) (flat (S n) A))) as E.
  { intros B. f_equal. f_equal. apply imap_ext. intros i x _. cbn [compose]. f_equal. lia. }
  specialize (E (tp_posts tp)). cbn [compose] in E.
  destruct t as [|t]; cbn [lookup list_lookup].
  - rewrite Nat.add_0_r in *. etrans; [apply (f_equal2 app); [|etrans; [exact E|apply flat_filter_nil; lia]]|].
    { instantiate (1 := imap (λ b p, foldl merge_posting p (M (k + off (tp :: A) 0 + b))) (tp_posts tp)).
      unfold off. cbn [take]. change (length (all_posts [])) with 0. clear.
      rewrite Nat.add_0_r. generalize k. clear k. induction (tp_posts tp) as [|p ps IH]; intros k; [done|].
      rewrite !imap_cons. cbn [compose]. rewrite filter_cons_True by done. rewrite fmap_cons. f_equal.
      specialize (IH (S k)).
      etrans; [etrans; [|exact IH]|]; [f_equal; f_equal|]; apply imap_ext; intros i x _; cbn [compose]; by rewrite <- ?Nat.add_succ_comm. }
    by rewrite app_nil_r.
  - etrans; [apply (f_equal2 app); [|etrans; [exact E|]]|].
    + instantiate (1 := []). replace (filter _ _) with (@nil jpost); [done|]. symmetry. apply elem_of_nil_inv.
      intros x [Ex Hx]%elem_of_list_filter. apply elem_of_lookup_imap in Hx as (i & y & -> & Hy). simpl in Ex. lia.
    + rewrite <- (Nat.add_succ_comm n t). apply IH.
    + cbn [app]. change ((tp :: A) !! S t) with (A !! t). destruct (A !! t) as [tp'|]; [|done]. apply imap_ext. intros i x _. do 2 f_equal.
      unfold off. cbn [take]. change (all_posts (tp :: take t A)) with (tp_posts tp ++ all_posts (take t A)). rewrite app_length. lia.
Qed.

(** A set merged into the empty journal. *)
Lemma all_fresh_new tp : tp_posts tp ≠ [] → fresh journal_new tp = true ∧ news_from (todo_of journal_new tp) = tp_posts tp ∧ dest_trns journal_new tp = [].
Proof.
  intros Hne.
  assert (∀ p, lookup_posting journal_new (tp_date tp) p = VNew) as Hl.
  { intros p. destruct (lookup_posting journal_new (tp_date tp) p) eqn:E; done. }
  assert (left_out journal_new tp = false) as El.
  { apply to_merge_spec. split; [done|]. intros p _ (_ & i & k & _ & (x & Hx & _) & _). done. }
  assert (dests journal_new tp = []) as Ed.
  { unfold dests, verdicts. apply elem_of_nil_inv. intros i (v & Hv & E)%elem_of_list_omap.
    apply elem_of_list_fmap in Hv as (p & -> & _). by rewrite Hl in E. }
  assert (fresh journal_new tp = true) as Ef.
  { unfold fresh. rewrite El. by rewrite bool_decide_eq_true_2. }
  split_and!; [done| |unfold dest_trns; by rewrite Ed].
  apply fresh_news; [done|]. intros p _. by rewrite Hl.
Qed.
Lemma first_closed A : (∀ tp, tp ∈ A → tp_posts tp ≠ []) →
  spec_merge journal_new A = Journal (tp_trn <$> A) (flat 0 A).
Proof.
  intros HA. rewrite spec_merge_closed. cbn [j_trns j_posts journal_new length imap app]. f_equal.
  - unfold new_trns. f_equal. induction A as [|tp A IH]; [done|]. rewrite filter_cons_True.
    + rewrite IH; [done|]. intros t Ht. apply HA. by right.
    + rewrite (proj1 (all_fresh_new tp (HA tp ltac:(left)))). done.
  - generalize 0. induction A as [|tp A IH]; intros n; [done|]. rewrite flat_cons. cbn [new_posts].
    destruct (all_fresh_new tp (HA tp ltac:(left))) as (E1 & E2 & E3). f_equal.
    + unfold new_of, target. by rewrite E2, E3.
    + rewrite E1. apply IH. intros t Ht. apply HA. by right.
Qed.

Lemma lookup_app_plus {T} (l k : list T) i : (l ++ k) !! (length l + i) = k !! i.
Proof. rewrite lookup_app_r by lia. f_equal. lia. Qed.

Section twin.
  Variables (w : paired) (extra' : list transaction_postings).
  Hypothesis Hts : two_sources w extra'.
  Let A := first_source w.
  Let B := second_source w extra'.
  Let j1 := Journal (tp_trn <$> A) (flat 0 A).

  Lemma tw_dA : fps_distinct (all_posts A).
  Proof using Hts.
    intros i k p q Hi Hk. pose proof (ts_distinct _ _ Hts : fps_distinct (all_posts A ++ all_posts B)) as H. apply (H i k p q); by apply lookup_app_l_Some.
  Qed.
  Lemma tw_dB : fps_distinct (all_posts B).
  Proof using Hts.
    intros i k p q Hi Hk Hs. pose proof (ts_distinct _ _ Hts : fps_distinct (all_posts A ++ all_posts B)) as H.
    assert (length (all_posts A) + i = length (all_posts A) + k); [|lia].
    apply (H _ _ p q); [by rewrite lookup_app_plus|by rewrite lookup_app_plus|done].
  Qed.
  Lemma tw_dAB p q : p ∈ all_posts A → q ∈ all_posts B → ¬ share_fp p q.
  Proof using Hts.
    intros [i Hi]%elem_of_list_lookup [k Hk]%elem_of_list_lookup Hs. pose proof (ts_distinct _ _ Hts : fps_distinct (all_posts A ++ all_posts B)) as H.
    assert (i = length (all_posts A) + k); [|apply lookup_lt_Some in Hi; lia].
    apply (H _ _ p q); [by apply lookup_app_l_Some|by rewrite lookup_app_plus|done].
  Qed.
  Lemma tw_A tp : tp ∈ A → tp_posts tp ≠ [].
  Proof using Hts. intros H. apply (ts_posts _ _ Hts), elem_of_app. by left. Qed.
  Lemma tw_B tp : tp ∈ B → (∃ a t qs, w !! a = Some (t, Some (tp, qs))) ∨ tp ∈ extra'.
  Proof.
    intros [H|H]%elem_of_app; [left|by right]. apply elem_of_list_omap in H as ([t [[tp' qs]|]] & Hx & E); simpl in E; simplify_eq.
    apply elem_of_list_lookup in Hx as [a Ha]. eauto.
  Qed.
  Lemma tw_in_B a t tp qs : w !! a = Some (t, Some (tp, qs)) → tp ∈ B.
  Proof. intros Ha. apply elem_of_app. left. apply elem_of_list_omap. exists (t, Some (tp, qs)). split; [by eapply elem_of_list_lookup_2|done]. Qed.
  Lemma tw_A_at a t o : w !! a = Some (t, o) → A !! a = Some t.
  Proof. intros Ha. unfold A, first_source. by rewrite list_lookup_fmap, Ha. Qed.
  Lemma tw_order a t tp qs q : w !! a = Some (t, Some (tp, qs)) → q ∈ qs ↔ q ∈ tp_posts tp.
  Proof using Hts. intros Ha. destruct (ts_twins _ _ Hts t tp qs) as (_ & H & _); [by eapply elem_of_list_lookup_2|]. by rewrite H. Qed.
  Lemma tw_counterpart a t tp qs b q : w !! a = Some (t, Some (tp, qs)) → qs !! b = Some q → ∃ p, tp_posts t !! b = Some p ∧ soft_match p q.
  Proof using Hts.
    intros Ha Hb. destruct (ts_twins _ _ Hts t tp qs) as (_ & _ & Hf); [by eapply elem_of_list_lookup_2|].
    destruct (Forall2_lookup_r _ _ _ _ _ Hf Hb) as (p & Hp & Hs). eauto.
  Qed.
  Lemma tw_nofp tp q i : tp ∈ B → q ∈ tp_posts tp → ¬ fp_match_at j1 q i.
  Proof using Hts.
    intros Htp Hq (x & Hx & Hs). cbn [j_posts j1] in Hx. apply flat_inv in Hx as (a & b & t & p & Ha & Hb & -> & _).
    apply (tw_dAB p q); [|by apply elem_of_list_bind; eauto|done].
    apply elem_of_list_bind. exists t. split; by eapply elem_of_list_lookup_2.
  Qed.
  Lemma tw_soft a t tp qs b q i : w !! a = Some (t, Some (tp, qs)) → qs !! b = Some q →
    soft_match_at j1 (tp_date tp) q i ↔ i = off A a + b.
  Proof using Hts.
    intros Ha Hb. split.
    - intros (x & Hx & Hd & Hs). cbn [j_posts j1] in Hx. apply flat_inv in Hx as (a' & b' & t' & p & Ha' & Hb' & -> & ->).
      cbn [jp_date jp_post] in *. unfold A, first_source in Ha'. rewrite list_lookup_fmap in Ha'.
      apply fmap_Some in Ha' as ([t'' o] & E & ->). cbn [fst] in *.
      destruct (ts_apart _ _ Hts a' a b' b _ o tp t qs p q E Ha Hb' Hb Hd Hs) as [-> ->]. done.
    - intros ->. destruct (ts_twins _ _ Hts t tp qs) as (Hd & _ & _); [by eapply elem_of_list_lookup_2|].
      destruct (tw_counterpart a t tp qs b q Ha Hb) as (p & Hp & Hs).
      eexists. split; [exact (flat_at 0 A a b t p (tw_A_at a t _ Ha) Hp)|]. done.
  Qed.
  Lemma tw_selects a t tp qs b q i : w !! a = Some (t, Some (tp, qs)) → qs !! b = Some q →
    selects j1 (tp_date tp) q i ↔ i = off A a + b.
  Proof using Hts.
    intros Ha Hb. pose proof (tw_in_B a t tp qs Ha) as HB.
    assert (q ∈ tp_posts tp) as Hq by (apply (tw_order a t tp qs q Ha); by eapply elem_of_list_lookup_2).
    split.
    - intros [[H _]|(_ & H & _)]; [by apply (tw_nofp tp) in H|]. by apply (tw_soft a t tp qs b q i Ha Hb) in H.
    - intros ->. right. split_and!; [intros k; by apply (tw_nofp tp)|by apply (tw_soft a t tp qs b q _ Ha Hb)|].
      intros k. by apply (tw_soft a t tp qs b q k Ha Hb).
  Qed.
  Lemma tw_nothing tp q : tp ∈ extra' → q ∈ tp_posts tp → matches_nothing j1 (tp_date tp) q.
  Proof using Hts.
    intros Htp Hq. split; [intros k; apply (tw_nofp tp); [apply elem_of_app; by right|done]|].
    intros k (x & Hx & Hd & Hs). cbn [j_posts j1] in Hx. apply flat_inv in Hx as (a & b & t & p & Ha & Hb & -> & _).
    cbn [jp_date jp_post] in *. eapply (ts_new _ _ Hts t tp p q); try done; by eapply elem_of_list_lookup_2.
  Qed.
  Lemma tw_not_selected tp q i : tp ∈ extra' → q ∈ tp_posts tp → ¬ selects j1 (tp_date tp) q i.
  Proof using Hts.
    intros He Hq Hs. destruct (tw_nothing tp q He Hq) as [H1 H2]. destruct Hs as [[H _]|(_ & H & _)]; [by apply H1 in H|by apply H2 in H].
  Qed.
  Lemma tw_place tp q i : tp ∈ B → q ∈ tp_posts tp → selects j1 (tp_date tp) q i →
    ∃ a t qs b p, w !! a = Some (t, Some (tp, qs)) ∧ qs !! b = Some q ∧ tp_posts t !! b = Some p ∧ i = off A a + b.
  Proof using Hts.
    intros HB Hq Hs. destruct (tw_B tp HB) as [(a & t & qs & Ha)|He]; [|by apply tw_not_selected in Hs].
    apply (tw_order a t tp qs q Ha) in Hq. apply elem_of_list_lookup in Hq as [b Hb].
    destruct (tw_counterpart a t tp qs b q Ha Hb) as (p & Hp & _).
    exists a, t, qs, b, p. split_and!; [done..|]. by apply (tw_selects a t tp qs b q i Ha Hb).
  Qed.
  Lemma tw_offsets a t o b p a' t' o' b' p' : w !! a = Some (t, o) → tp_posts t !! b = Some p → w !! a' = Some (t', o') →
    tp_posts t' !! b' = Some p' → off A a + b = off A a' + b' → a = a' ∧ b = b'.
  Proof. intros Ha Hb Ha' Hb' E. by eapply (offsets_inj A a b a' b' t t' p p'); [eapply tw_A_at|..|eapply tw_A_at| |]. Qed.
  Lemma tw_to_merge tp : tp ∈ B → to_merge j1 tp.
  Proof using Hts.
    intros HB. destruct (tw_B tp HB) as [(a & t & qs & Ha)|He].
    - split.
      + destruct (ts_twins _ _ Hts t tp qs) as (_ & Hp & Hf); [by eapply elem_of_list_lookup_2|].
        assert (tp_posts t ≠ []) as Hn by (apply tw_A; eapply elem_of_list_lookup_2, tw_A_at, Ha).
        intros E. rewrite E in Hp. apply Permutation_nil_r in Hp. rewrite Hp in Hf. by apply Forall2_nil_inv_r in Hf.
      + intros q Hq (_ & i & k & Hne & H1 & H2). apply (tw_order a t tp qs q Ha) in Hq. apply elem_of_list_lookup in Hq as [b Hb].
        apply (tw_soft a t tp qs b q _ Ha Hb) in H1, H2. congruence.
    - split; [apply (ts_posts _ _ Hts), elem_of_app; by right|].
      intros q Hq (_ & i & _ & _ & H & _). by apply (proj2 (tw_nothing tp q He Hq)) in H.
  Qed.
  Lemma tw_acceptable : acceptable j1 B.
  Proof using Hts.
    split.
    - intros p Hp. apply (ts_mergeable _ _ Hts), elem_of_app. by right.
    - exact tw_dB.
    - intros p (tp & Hp & Htp)%elem_of_list_bind (i & _ & _ & H & _). by apply (tw_nofp tp) in H.
    - intros tp p q i k x y HB _ Hp Hq Hsp Hsq Hx Hy.
      destruct (tw_B tp HB) as [(a & t & qs & Ha)|He]; [|by apply tw_not_selected in Hsp].
      apply (tw_order a t tp qs _ Ha), elem_of_list_lookup in Hp as [b Hb].
      apply (tw_order a t tp qs _ Ha), elem_of_list_lookup in Hq as [b' Hb'].
      apply (tw_selects a t tp qs b p i Ha Hb) in Hsp. apply (tw_selects a t tp qs b' q k Ha Hb') in Hsq. subst i k.
      destruct (tw_counterpart a t tp qs b p Ha Hb) as (p1 & Hp1 & _). destruct (tw_counterpart a t tp qs b' q Ha Hb') as (p2 & Hp2 & _).
      cbn [j_posts j1] in Hx, Hy. pose proof (tw_A_at a t _ Ha) as HA. rewrite (flat_at 0 A a b t p1 HA Hp1) in Hx.
      rewrite (flat_at 0 A a b' t p2 HA Hp2) in Hy. by simplify_eq/=.
    - intros c b c' b' tp tp' p p' i Hc Hb Hc' Hb' _ _ Hs Hs'.
      destruct (tw_place tp p i) as (a & t & qs & k & p1 & Ha & Hk & Hp1 & E); [by eapply elem_of_list_lookup_2..|done|].
      destruct (tw_place tp' p' i) as (a' & t' & qs' & k' & p2 & Ha' & Hk' & Hp2 & E'); [by eapply elem_of_list_lookup_2..|done|].
      destruct (tw_offsets a t _ k p1 a' t' _ k' p2 Ha Hp1 Ha' Hp2) as [-> ->]; [congruence|].
      rewrite Ha in Ha'. injection Ha' as <- <- <-. rewrite Hk in Hk'. injection Hk' as <-.
      eapply (same_place B c b c' b'); [exact tw_dB|done..|].
      destruct (ts_mergeable _ _ Hts p) as [(f & Hf) _]; [|by exists f].
      apply elem_of_app. right. apply elem_of_list_bind. exists tp. split; by eapply elem_of_list_lookup_2.
  Qed.
  Lemma tw_valid : valid_set j1 B.
  Proof using Hts. apply valid_set_declarative, tw_acceptable. Qed.
  Lemma tw_kept tp : tp ∈ B → left_out j1 tp = false.
  Proof using Hts. intros H. by apply to_merge_spec, tw_to_merge. Qed.
  Lemma tw_into a b t o p : w !! a = Some (t, o) → tp_posts t !! b = Some p →
    merged_into j1 B (off A a + b) = match o with Some (_, qs) => option_list (qs !! b) | None => [] end.
  Proof using Hts.
    intros Ha Hb.
    assert (∀ q, q ∈ merged_into j1 B (off A a + b) ↔ ∃ tp qs, o = Some (tp, qs) ∧ qs !! b = Some q) as H.
    { intros q. rewrite elem_of_merged_into. split.
      - intros (tp & HB & _ & Hq & Hl%selects_spec).
        destruct (tw_place tp q _ HB Hq Hl) as (a' & t' & qs & b' & p' & Ha' & Hb' & Hp' & E).
        destruct (tw_offsets a t o b p a' t' _ b' p' Ha Hb Ha' Hp' E) as [<- <-].
        rewrite Ha in Ha'. injection Ha' as -> ->. eauto.
      - intros (tp & qs & -> & Hq). exists tp. pose proof (tw_in_B a t tp qs Ha) as HB.
        split_and!; [done|by apply tw_kept|apply (tw_order a t tp qs q Ha); by eapply elem_of_list_lookup_2|].
        apply selects_spec. by apply (tw_selects a t tp qs b q). }
    assert (∀ q, q ∈ merged_into j1 B (off A a + b) → merged_into j1 B (off A a + b) = [q]) as H1.
    { intros q. apply merged_into_one, tw_valid. }
    destruct o as [[tp qs]|]; [|apply elem_of_nil_inv; by intros q (? & ? & ? & _)%H].
    destruct (qs !! b) as [q|] eqn:E; cbn [option_list]; [apply H1, H; eauto|].
    apply elem_of_nil_inv. intros q (? & ? & [= <- <-] & ?)%H. congruence.
  Qed.
  Lemma tw_joined a t o : w !! a = Some (t, o) →
    imap (λ b p, foldl merge_posting p (merged_into j1 B (0 + off A a + b))) (tp_posts t) = tp_posts (joined (t, o)).
  Proof using Hts.
    intros Ha. cbn [Nat.add].
    transitivity (imap (λ b p, foldl merge_posting p (match o with Some (_, qs) => option_list (qs !! b) | None => [] end)) (tp_posts t)).
    { apply imap_ext. intros b p Hb. by rewrite (tw_into a b t o p Ha Hb). }
    unfold joined. cbn [fst snd]. destruct o as [[tp qs]|].
    - destruct (ts_twins _ _ Hts t tp qs) as (_ & _ & Hf); [by eapply elem_of_list_lookup_2|]. cbn [tp_posts].
      clear -Hf. induction Hf as [|p q ps qs _ _ IH]; [done|]. rewrite imap_cons. cbn [zip_with]. f_equal.
      etrans; [|exact IH]. by apply imap_ext.
    - clear. induction (tp_posts t) as [|p ps IH]; [done|]. rewrite imap_cons. f_equal. exact IH.
  Qed.
  Lemma tw_fresh tp : tp ∈ B → fresh j1 tp = true ↔ tp ∈ extra' .
  Proof using Hts.
    intros HB. unfold fresh. rewrite (tw_kept tp HB). cbn [negb andb]. rewrite bool_decide_eq_true. split.
    - intros Hd. destruct (tw_B tp HB) as [(a & t & qs & Ha)|He]; [exfalso|done].
      destruct (tw_to_merge tp HB) as [Hne _]. destruct (tp_posts tp) as [|q l] eqn:E; [done|].
      assert (q ∈ tp_posts tp) as Hq by (rewrite E; left). pose proof Hq as Hq'.
      apply (tw_order a t tp qs q Ha), elem_of_list_lookup in Hq' as [b Hb].
      assert (off A a + b ∈ dests j1 tp) as Hin; [|rewrite Hd in Hin; by apply elem_of_nil in Hin].
      unfold dests, verdicts. apply elem_of_list_omap. exists (lookup_posting j1 (tp_date tp) q). split.
      + apply elem_of_list_fmap. by exists q.
      + replace (lookup_posting j1 (tp_date tp) q) with (VMerge (off A a + b)); [done|]. symmetry. apply selects_spec.
        by apply (tw_selects a t tp qs b q).
    - intros He. apply elem_of_nil_inv. intros i (v & Hv & E)%elem_of_list_omap. unfold verdicts in Hv.
      apply elem_of_list_fmap in Hv as (q & -> & Hq). destruct (lookup_posting j1 (tp_date tp) q) as [k| | |] eqn:El; try done.
      apply selects_spec in El. by apply tw_not_selected in El.
  Qed.
  Lemma tw_old tp : tp ∈ omap (λ x, fst <$> x.2) w → fresh j1 tp = false.
  Proof using Hts.
    intros Htp. destruct (fresh j1 tp) eqn:E; [exfalso|done].
    assert (tp ∈ B) as HB by (apply elem_of_app; by left). apply (tw_fresh tp HB) in E.
    apply elem_of_list_omap in Htp as ([t [[tp' qs]|]] & Hx & Eo); simpl in Eo; simplify_eq. apply elem_of_list_lookup in Hx as [a Ha].
    destruct (tw_to_merge tp HB) as [Hne _]. destruct (tp_posts tp) as [|q l] eqn:Eq; [done|].
    assert (q ∈ tp_posts tp) as Hq by (rewrite Eq; left). pose proof Hq as Hq'.
    apply (tw_order a t tp qs q Ha), elem_of_list_lookup in Hq' as [b Hb].
    destruct (tw_nothing tp q E Hq) as [_ H2]. apply (H2 (off A a + b)). by apply (tw_soft a t tp qs b q).
  Qed.
  Lemma tw_extra t tp : tp ∈ B → extra j1 t tp = [].
  Proof using Hts.
    intros HB. unfold extra. destruct (dest_trns j1 tp) as [|t' ts] eqn:E; [done|]. destruct (decide (t' = t)); [|done].
    destruct (tw_B tp HB) as [(a & u & qs & Ha)|He].
    - apply elem_of_nil_inv. intros q. unfold news_from, todo_of. rewrite (tw_kept tp HB).
      intros ([q' v] & Hin & Ev)%elem_of_list_omap. simpl in Ev. destruct v; simplify_eq/=.
      apply elem_of_list_lookup in Hin as [k Hk]. apply lookup_zip_with_Some in Hk as (q' & v & [= <- <-] & Hk & Hv).
      unfold verdicts in Hv. rewrite list_lookup_fmap, Hk in Hv. simpl in Hv. injection Hv as Hv.
      apply elem_of_list_lookup_2, (tw_order a u tp qs q Ha), elem_of_list_lookup in Hk as [b Hb].
      pose proof (proj2 (tw_selects a u tp qs b q (off A a + b) Ha Hb) eq_refl) as Hs. apply selects_spec in Hs. congruence.
    - pose proof (proj2 (tw_fresh tp HB) He) as Hf. rewrite (fresh_dest_trns j1 tp (tw_kept tp HB)), E in Hf. done.
  Qed.
  Lemma tw_trns : journal_wf j1 → journal_trns (spec_merge j1 B) = (joined <$> w) ++ extra'.
  Proof using Hts.
    intros Hwf. rewrite (trns_closed j1 B Hwf tw_valid). f_equal.
    - cbn [j_trns j_posts j1]. rewrite imap_fmap.
      transitivity (imap (λ _ x, joined x) w); [|clear; induction w as [|x l IH]; [done|]; rewrite imap_cons, fmap_cons; f_equal; exact IH].
      unfold A, first_source. rewrite imap_fmap. apply imap_ext. intros a [t o] Ha. cbn [compose fst].
      replace (B ≫= extra j1 a) with (@nil posting_internal).
      2:{ symmetry. apply elem_of_nil_inv. intros q (tp & Hq & HB)%elem_of_list_bind. rewrite (tw_extra a tp HB) in Hq. by apply elem_of_nil in Hq. }
      rewrite app_nil_r. pose proof (flat_filter a (merged_into j1 B) A 0 0) as H. cbn [Nat.add] in H.
      assert (A !! a = Some t) as HA by (unfold A, first_source; by rewrite list_lookup_fmap, Ha).
      rewrite HA in H. transitivity (TP (tp_trn t) (tp_posts (joined (t, o)))); [|by destruct o as [[]|], t].
      f_equal. rewrite <- (tw_joined a t o Ha). exact H.
    - unfold B, second_source. rewrite filter_app.
      replace (filter _ (omap _ w)) with (@nil transaction_postings).
      2:{ symmetry. apply elem_of_nil_inv. intros tp [Hf Htp]%elem_of_list_filter. by rewrite (tw_old tp Htp) in Hf. }
      cbn [app]. assert (∀ tp, tp ∈ extra' → fresh j1 tp = true) as H.
      { intros tp Htp. apply tw_fresh; [apply elem_of_app; by right|done]. }
      clear -H. induction extra' as [|tp l IH]; [done|]. rewrite filter_cons_True by (rewrite (H tp ltac:(left)); done).
      f_equal. apply IH. intros u Hu. apply H. by right.
  Qed.
  Lemma tw_told_apart : extra_apart w extra' → told_apart j1 B.
  Proof using Hts.
    intros He c c' tp tp' Hc Hc' Hne (q & p & Hq & Hp & Hd & Hn & _ & Hs).
    destruct (tw_B tp) as [(a & t & qs & Ha)|Hx]; [by eapply elem_of_list_lookup_2| |by eapply (He c c' tp tp' q p)].
    apply (tw_order a t tp qs q Ha), elem_of_list_lookup in Hq as [b Hb]. destruct Hn as [_ Hn]. apply (Hn (off A a + b)).
    by apply (tw_soft a t tp qs b q).
  Qed.

  Theorem two_sources_joined ho ho1 ho2 :
    hash_order_ok ho → hash_order_ok ho1 → hash_order_ok ho2 →
    ∃ m1 m, merge ho1 merger_new A = (m1, Ok []) ∧ merge ho2 m1 B = (m, Ok []) ∧
      build ho m = Ok (stable_sort (by_key tp_date) ((joined <$> w) ++ extra')) ∧
      reachable m1 ∧ represents m1 j1.
  Proof using Hts.
    intros Hho Hho1 Hho2.
    assert (valid_set journal_new A) as HvA.
    { apply valid_set_declarative, from_empty_valid; [|exact tw_dA]. intros p Hp. apply (ts_mergeable _ _ Hts), elem_of_app. by left. }
    destruct (accepted_whole merger_new journal_new ho1 A reach_new (rep_new) Hho1 HvA) as (m1 & E1 & Hj1).
    { intros tp Htp. pose proof (proj1 (all_fresh_new tp (tw_A tp Htp))) as Hf. unfold fresh in Hf.
      by destruct (left_out journal_new tp). }
    rewrite (first_closed A tw_A) in Hj1. fold j1 in Hj1.
    assert (reachable m1) as Hr1 by (pose proof (reach_merge merger_new ho1 A reach_new Hho1) as H; by rewrite E1 in H).
    pose proof (reachable_wf m1 j1 Hr1 Hj1) as Hwf.
    destruct (accepted_whole m1 j1 ho2 B Hr1 Hj1 Hho2 tw_valid tw_kept) as (m & E2 & Hj).
    exists m1, m. split_and!; [done|done| |done|done].
    rewrite (build_refines ho Hho m _ Hj). by rewrite tw_trns.
  Qed.
End twin.

Theorem two_sources_pieces w extra' gs ho1 ho2 :
  two_sources w extra' → extra_apart w extra' → mjoin gs ≡ₚ second_source w extra' →
  hash_order_ok ho1 → hash_order_ok ho2 →
  ∃ m1 m2, merge ho1 merger_new (first_source w) = (m1, Ok []) ∧ merges ho2 m1 gs [] m2 ∧
    ∀ hb out, hash_order_ok hb → build hb m2 = Ok out →
      same_up_to_order (stable_sort (by_key tp_date) ((joined <$> w) ++ extra')) out.
Proof.
  intros Hts He Hp Hho1 Hho2.
  destruct (two_sources_joined w extra' Hts ho1 ho1 ho1 Hho1 Hho1 Hho1) as (m1 & m & E1 & E2 & Eb & Hr & Hj).
  destruct (regrouped m1 _ ho1 ho2 _ gs m Hr Hj Hho1 Hho2 E2 (tw_told_apart w extra' Hts He) Hp) as (m2 & E3 & H).
  exists m1, m2. split_and!; [done|done|]. intros hb out Hhb Hb. exact (H ho1 hb _ _ Hho1 Hhb Eb Hb).
Qed.

Lemma merge_unknown p q :
  (unknown_account (merge_posting p q) ↔ unknown_account p ∧ unknown_account q) ∧
  (¬ unknown_account p → p_account (pi_raw (merge_posting p q)) = p_account (pi_raw p)) ∧
  (unknown_account p → ¬ unknown_account q → p_account (pi_raw (merge_posting p q)) = p_account (pi_raw q)).
Proof.
  assert (UNKNOWN_ACCOUNT = s2l "unknown-account") as EU by reflexivity.
  unfold unknown_account, has_tag. rewrite <- EU. split_and!.
  - rewrite merge_posting_tags. by rewrite decide_True.
  - intros Hp. rewrite merge_posting_account. by rewrite bool_decide_eq_false_2.
  - intros Hp Hq. rewrite merge_posting_account. by rewrite bool_decide_eq_true_2, bool_decide_eq_false_2.
Qed.
Lemma joined_posts w extra' tp tp' qs : two_sources w extra' → (tp, Some (tp', qs)) ∈ w →
  tp_trn (joined (tp, Some (tp', qs))) = tp_trn tp ∧ length qs = length (tp_posts tp) ∧
  length (tp_posts (joined (tp, Some (tp', qs)))) = length (tp_posts tp) ∧
  ∀ b p q, tp_posts tp !! b = Some p → qs !! b = Some q →
    ∃ r, tp_posts (joined (tp, Some (tp', qs))) !! b = Some r ∧
      (∀ f, has_fp r f ↔ has_fp p f ∨ has_fp q f) ∧
      (unknown_account r ↔ unknown_account p ∧ unknown_account q) ∧
      (¬ unknown_account p → p_account (pi_raw r) = p_account (pi_raw p)) ∧
      (unknown_account p → ¬ unknown_account q → p_account (pi_raw r) = p_account (pi_raw q)).
Proof.
  intros Hts Hin. destruct (ts_twins _ _ Hts tp tp' qs Hin) as (_ & _ & Hf). pose proof (Forall2_length _ _ _ Hf) as Hl.
  unfold joined. cbn [fst snd tp_trn tp_posts]. split_and!; [done|done|rewrite zip_with_length; lia|].
  intros b p q Hp Hq. exists (merge_posting p q). split; [apply lookup_zip_with_Some; eauto|].
  split; [intros f; apply merge_posting_fp|]. apply merge_unknown.
Qed.

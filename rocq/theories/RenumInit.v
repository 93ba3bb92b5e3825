(** Proofs for C107: a journal and the journal read back from its transactions. *)
From Verif Require Import Base Types CommentModel MergeModel SpecBase BaseProofs MergeSpec MergeClaims
  MergeProofs MergePending MergeApply MergeBuild MergeClosed MergeLemmas MergePlaces MergeLaws MergeLaws2 MergeLaws3 MergeLaws4 ResolveClaims Renum.
From Coq Require Import Lia.
Local Open Scope nat_scope.

(** A journal filled from one set. *)
Fixpoint laid_out (n : nat) (tps : list transaction_postings) : list jpost :=
  match tps with
  | [] => []
  | tp :: tps => (JP n (tp_date tp) <$> tp_posts tp) ++ laid_out (S n) tps
  end.
Lemma fresh_lookup d p : lookup_posting journal_new d p = VNew.
Proof. done. Qed.
Lemma fresh_postings t d ps : ∀ K, foldl (apply_posting t d) K (zip ps (lookup_posting journal_new d <$> ps)) = K ++ (JP t d <$> ps).
Proof.
  induction ps as [|p ps IH]; intros K; [by rewrite app_nil_r|]. rewrite fmap_cons. cbn [zip zip_with foldl].
  change (zip_with pair ps (lookup_posting journal_new d <$> ps)) with (zip ps (lookup_posting journal_new d <$> ps)).
  rewrite IH. unfold apply_posting. cbn [fst snd]. rewrite fresh_lookup, <- app_assoc. done.
Qed.
Lemma fresh_merge tps : (∀ tp, tp ∈ tps → tp_posts tp ≠ []) → ∀ K,
  foldl (apply_trn journal_new) K tps = Journal (j_trns K ++ (tp_trn <$> tps)) (j_posts K ++ laid_out (length (j_trns K)) tps).
Proof.
  induction tps as [|tp tps IH]; intros Hne K.
  { destruct K. simpl. by rewrite !app_nil_r. }
  cbn [foldl]. rewrite IH by (intros; apply Hne; by right). clear IH.
  assert (apply_trn journal_new K tp = Journal (j_trns K ++ [tp_trn tp]) (j_posts K ++ (JP (length (j_trns K)) (tp_date tp) <$> tp_posts tp))) as ->.
  { unfold apply_trn.
    assert (left_out journal_new tp = false) as ->.
    { unfold left_out. specialize (Hne tp ltac:(by left)). destruct (tp_posts tp) as [|p ps] eqn:E; [done|].
      unfold verdicts. rewrite E. generalize (p :: ps). clear. intros l. induction l as [|q l IH]; [done|]. rewrite fmap_cons. simpl. done. }
    assert (dests journal_new tp = []) as ->.
    { unfold dests, verdicts. generalize (tp_posts tp). clear. intros l. induction l as [|q l IH]; [done|]. rewrite fmap_cons. csimpl. done. }
    cbn [mbind list_bind]. f_equal. apply fresh_postings. }
  cbn [j_trns j_posts laid_out]. rewrite fmap_cons, <- !app_assoc, app_length. cbn [length]. by rewrite Nat.add_1_r.
Qed.
Lemma laid_out_length n tps : length (laid_out n tps) = length (all_posts tps).
Proof.
  revert n. induction tps as [|tp tps IH]; intros n; [done|]. cbn [laid_out]. unfold all_posts in *. rewrite bind_cons, !app_length, fmap_length, IH. done.
Qed.

(** A permutation of the numbers below [N] as a function. *)
Lemma perm_pos (L : list nat) N : L ≡ₚ seq 0 N → ∃ f : nat → nat,
  Inj (=) (=) f ∧ (∀ t, ∃ u, f u = t) ∧ (∀ i, N ≤ i → f i = i) ∧ ∀ i, i < N → L !! f i = Some i.
Proof.
  intros HL. pose proof HL as HL'. symmetry in HL'. apply Permutation_inj in HL' as (Hlen & f & Hf & Hl).
  rewrite seq_length in Hlen.
  assert (∀ i, i < N → L !! f i = Some i) as Hat.
  { intros i Hi. rewrite <- Hl, lookup_seq_lt by done. done. }
  assert (NoDup L) as Hnd by (rewrite HL; apply NoDup_seq).
  assert (∀ i, i < N → f i < N) as Hlt.
  { intros i Hi. specialize (Hat i Hi). apply lookup_lt_Some in Hat. lia. }
  exists (λ i, if decide (i < N) then f i else i). split_and!.
  - intros i k. destruct (decide (i < N)) as [Hi|Hi], (decide (k < N)) as [Hk|Hk]; [apply Hf| | |done].
    + intros <-. by apply Hlt in Hi.
    + intros ->. by apply Hlt in Hk.
  - intros t. destruct (decide (t < N)) as [Ht|Ht].
    + rewrite Hlen in Ht. apply lookup_lt_is_Some in Ht as [i Hi].
      assert (i ∈ seq 0 N) as Hin. { rewrite <- HL. by eapply elem_of_list_lookup_2. }
      apply elem_of_seq in Hin. exists i. rewrite decide_True by lia. eapply NoDup_lookup; [exact Hnd|apply Hat; lia|done].
    + exists t. by rewrite decide_False.
  - intros i Hi. by rewrite decide_False by lia.
  - intros i Hi. rewrite decide_True by done. auto.
Qed.
(** Order of two elements of a list from that of the filtered list. *)
Lemma order_in_filter {A} (key : A → nat) (P : A → Prop) `{∀ x, Decision (P x)} L : ∀ a b x y,
  StronglySorted (λ x y, key x < key y) (filter P L) → L !! a = Some x → L !! b = Some y → P x → P y → key x < key y → a < b.
Proof.
  induction L as [|z L IH]; intros a b x y Hs Hx Hy Px Py Hk; [done|].
  assert (StronglySorted (λ x y, key x < key y) (filter P L)) as Hs'.
  { rewrite filter_cons in Hs. destruct (decide (P z)); [by inversion Hs|done]. }
  destruct a as [|a], b as [|b]; cbn in Hx, Hy.
  - simplify_eq. lia.
  - lia.
  - injection Hy as <-. rewrite filter_cons_True in Hs by done. inversion Hs as [|? ? _ Hall]; subst.
    rewrite Forall_forall in Hall. specialize (Hall x). cbv beta in Hall.
    assert (x ∈ filter P L) as Hin by (apply elem_of_list_filter; split; [done|by eapply elem_of_list_lookup_2]). specialize (Hall Hin). lia.
  - assert (a < b) by by eapply IH. lia.
Qed.
Lemma SSorted_filter {A} (R : A → A → Prop) (P : A → Prop) `{∀ x, Decision (P x)} L : StronglySorted R L → StronglySorted R (filter P L).
Proof.
  induction 1 as [|x l Hl IH Hx]; [constructor|]. rewrite filter_cons. destruct (decide (P x)); [|done]. constructor; [done|].
  apply Forall_forall. intros y [_ Hy]%elem_of_list_filter. rewrite Forall_forall in Hx. auto.
Qed.
Lemma imap_pair_sorted {A} (l : list A) : ∀ n, StronglySorted (λ x y : nat * A, x.1 < y.1) (imap (λ i x, (n + i, x)) l).
Proof.
  induction l as [|x l IH]; intros n; [constructor|]. rewrite imap_cons. constructor.
  - rewrite (imap_ext _ (λ i x, (S n + i, x))); [apply IH|]. intros i y _. simpl. f_equal. lia.
  - apply Forall_forall. intros [i y] Hy. apply elem_of_lookup_imap in Hy as (k & z & E & _). simplify_eq/=. lia.
Qed.

Section init.
  Context (j : journal) (Hwf : journal_wf j) (Hd : dates_agree j).
  Let key (e : nat * transaction_postings) : date := tp_date e.2.
  Let I0 : list (nat * transaction_postings) := imap pair (journal_trns j).
  Let I1 := stable_sort (by_key key) I0.
  Let out := stable_sort (by_key tp_date) (journal_trns j).
  Let blk (t : nat) : list nat := positions (λ x, bool_decide (jp_trn x = t)) (j_posts j).
  Let Q : list nat := I1 ≫= (λ e, blk e.1).

  Lemma in_snd : I1.*2 = out.
  Proof using Type.
    unfold I1, out, I0. rewrite <- (stable_sort_fmap snd (by_key tp_date) (by_key key)) by done.
    f_equal. generalize (journal_trns j). clear. intros l. apply list_eq. intros i. rewrite list_lookup_fmap, list_lookup_imap. by destruct (l !! i).
  Qed.
  Lemma in_fst : I1.*1 ≡ₚ seq 0 (length (j_trns j)).
  Proof using Type.
    unfold I1. rewrite stable_sort_perm. unfold I0.
    assert (length (j_trns j) = length (journal_trns j)) as -> by (unfold journal_trns; by rewrite imap_length).
    generalize (journal_trns j). clear. intros l.
    assert ((imap pair l).*1 = seq 0 (length l)) as ->; [|done].
    apply list_eq. intros i. rewrite list_lookup_fmap, list_lookup_imap.
    destruct (l !! i) eqn:E; simpl.
    - apply lookup_lt_Some in E. by rewrite lookup_seq_lt.
    - apply lookup_ge_None in E. by rewrite lookup_seq_ge.
  Qed.
  Lemma in_elem t tp : (t, tp) ∈ I1 → journal_trns j !! t = Some tp.
  Proof using Type.
    unfold I1. rewrite stable_sort_perm. unfold I0. intros H. apply elem_of_lookup_imap in H as (i & x & E & Hx). by simplify_eq.
  Qed.
  Lemma in_nodup : NoDup I1.*1.
  Proof using Type. rewrite in_fst. apply NoDup_seq. Qed.
  Lemma q_perm : Q ≡ₚ seq 0 (length (j_posts j)).
  Proof using Hwf.
    apply NoDup_Permutation; [|apply NoDup_seq|].
    - apply NoDup_bind; [intros; apply NoDup_positions|].
      intros i k x y b Hx Hy Hb1 Hb2. apply elem_of_positions in Hb1 as (z & Hz & E1), Hb2 as (z' & Hz' & E2).
      apply bool_decide_eq_true in E1, E2. simplify_eq. eapply (NoDup_lookup I1.*1 i k x.1); [apply in_nodup| |].
      + by rewrite list_lookup_fmap, Hx.
      + rewrite list_lookup_fmap, Hy. simpl. congruence.
    - intros i. rewrite elem_of_seq. unfold Q. rewrite elem_of_list_bind. split.
      + intros (e & Hi & _). apply positions_lt in Hi. lia.
      + intros [_ Hi]. apply lookup_lt_is_Some in Hi as [x Hx].
        pose proof (jw_parent _ Hwf x ltac:(by eapply elem_of_list_lookup_2)) as Ht.
        assert (jp_trn x ∈ I1.*1) as Hin by (rewrite in_fst; apply elem_of_seq; lia).
        apply elem_of_list_fmap in Hin as (e & He & Hin). exists e. split; [|done]. apply elem_of_positions. exists x. split; [done|].
        by apply bool_decide_eq_true.
  Qed.
  Lemma blk_in i t : i ∈ blk t ↔ ∃ x, j_posts j !! i = Some x ∧ jp_trn x = t.
  Proof using Type. unfold blk. rewrite elem_of_positions. by setoid_rewrite bool_decide_eq_true. Qed.

  (** The postings laid out are those of [j], in the order [Q]. *)
  Definition placed (σ : nat → nat) (i : nat) (y : jpost) : Prop :=
    ∃ x, j_posts j !! i = Some x ∧ y = renamed σ x.
  Lemma placed_all σ : (∀ n e, I1 !! n = Some e → σ e.1 = n) → Forall2 (placed σ) Q (laid_out 0 out).
  Proof using Hd.
    intros Hσ. rewrite <- in_snd. unfold Q.
    assert (∀ pre suf, I1 = pre ++ suf → Forall2 (placed σ) (suf ≫= (λ e, blk e.1)) (laid_out (length pre) suf.*2)) as H.
    { intros pre suf. revert pre. induction suf as [|[t tp] suf IH]; intros pre E; [constructor|].
      rewrite bind_cons, fmap_cons. cbn [laid_out]. apply Forall2_app.
      - assert (journal_trns j !! t = Some tp) as Ht by (apply in_elem; rewrite E; apply elem_of_app; right; by left).
        unfold journal_trns in Ht. rewrite list_lookup_imap in Ht. destruct (j_trns j !! t) as [h|] eqn:Eh; [|done]. injection Ht as <-.
        cbn [fst snd tp_posts]. rewrite <- (Hσ (length pre) _ ltac:(rewrite E; by apply list_lookup_middle)). cbn [fst].
        unfold blk.
        assert (filter (λ x, jp_trn x = t) (j_posts j) = omap (λ i, j_posts j !! i) (positions (λ x, bool_decide (jp_trn x = t)) (j_posts j))) as ->.
        { rewrite omap_positions. apply list_filter_iff. intros x. symmetry. apply bool_decide_eq_true. }
        assert (∀ i, i ∈ positions (λ x, bool_decide (jp_trn x = t)) (j_posts j) → ∃ x, j_posts j !! i = Some x ∧ jp_trn x = t) as Hb by (intros i; apply blk_in).
        generalize dependent (positions (λ x, bool_decide (jp_trn x = t)) (j_posts j)). intros L. induction L as [|i L IHL]; intros HL; [constructor|].
        destruct (HL i ltac:(by left)) as (x & Hx & Ex). csimpl. rewrite Hx. rewrite !fmap_cons. constructor.
        + exists x. split; [done|]. unfold renamed. rewrite Ex. f_equal. unfold tp_date. cbn [tp_trn].
          symmetry. eapply Hd; [by eapply elem_of_list_lookup_2|by rewrite Ex].
        + apply IHL. intros k Hk. apply HL. by right.
      - specialize (IH (pre ++ [(t, tp)])). rewrite app_length in IH. cbn [length] in IH. rewrite Nat.add_1_r in IH.
        apply IH. by rewrite <- app_assoc. }
    exact (H [] I1 eq_refl).
  Qed.
  Lemma sorted_block t : StronglySorted lt (filter (λ i, (jp_trn <$> j_posts j !! i) = Some t) Q).
  Proof using Type.
    unfold Q. assert (∀ L : list (nat * transaction_postings), NoDup L.*1 →
      StronglySorted lt (filter (λ i, (jp_trn <$> j_posts j !! i) = Some t) (L ≫= (λ e, blk e.1)))) as H; [|apply H, in_nodup].
    induction L as [|e L IH]; intros Hnd; [constructor|]. rewrite bind_cons, filter_app. rewrite fmap_cons in Hnd.
    apply NoDup_cons in Hnd as [Hn Hnd]. destruct (decide (e.1 = t)) as [<-|Hne].
    - assert (filter (λ i, (jp_trn <$> j_posts j !! i) = Some e.1) (L ≫= (λ e, blk e.1)) = []) as ->.
      { apply elem_of_nil_inv. intros i [Hi (e' & Hi' & He')%elem_of_list_bind]%elem_of_list_filter.
        apply blk_in in Hi' as (x & Hx & Ex). rewrite Hx in Hi. simpl in Hi. simplify_eq. apply Hn. rewrite <- Hi. rewrite Ex. by apply elem_of_list_fmap_1. }
      rewrite app_nil_r. apply SSorted_filter. apply positions_increasing.
    - assert (filter (λ i, (jp_trn <$> j_posts j !! i) = Some t) (blk e.1) = []) as ->; [|by apply IH].
      apply elem_of_nil_inv. intros i [Hi Hi']%elem_of_list_filter. apply blk_in in Hi' as (x & Hx & Ex).
      rewrite Hx in Hi. simpl in Hi. by simplify_eq.
  Qed.

  Lemma renum_init : ∃ σ π, renum σ π j (Journal (tp_trn <$> out) (laid_out 0 out)).
  Proof using Hwf Hd.
    destruct (perm_pos _ _ in_fst) as (σ & Si & Ss & Sid & Sat). destruct (perm_pos _ _ q_perm) as (π & Pi & Ps & Pid & Pat).
    assert (length out = length (j_trns j)) as Hlo.
    { unfold out. rewrite stable_sort_perm. unfold journal_trns. by rewrite imap_length. }
    assert (∀ n e, I1 !! n = Some e → σ e.1 = n) as Hσ.
    { intros n e He. assert (I1.*1 !! n = Some e.1) as He1 by (by rewrite list_lookup_fmap, He).
      assert (e.1 < length (j_trns j)) as Hlt.
      { assert (e.1 ∈ seq 0 (length (j_trns j))) as Hin by (rewrite <- in_fst; by eapply elem_of_list_lookup_2). apply elem_of_seq in Hin. lia. }
      eapply NoDup_lookup; [apply in_nodup|by apply Sat|done]. }
    pose proof (placed_all σ Hσ) as Hpl.
    assert (length (laid_out 0 out) = length (j_posts j)) as Hlp.
    { rewrite <- (Forall2_length _ _ _ Hpl), (Permutation_length q_perm). apply seq_length. }
    assert (∀ t h, j_trns j !! t = Some h → ∃ tp, I1 !! σ t = Some (t, tp) ∧ journal_trns j !! t = Some tp ∧ tp_trn tp = h) as HI.
    { intros t h Hh. pose proof (Sat t ltac:(by eapply lookup_lt_Some)) as Ht. rewrite list_lookup_fmap in Ht.
      destruct (I1 !! σ t) as [[t' tp]|] eqn:E; [|done]. cbn in Ht. injection Ht as ->. exists tp.
      pose proof (in_elem t tp ltac:(by eapply elem_of_list_lookup_2)) as Hj. split_and!; [done|done|].
      unfold journal_trns in Hj. rewrite list_lookup_imap, Hh in Hj. by injection Hj as <-. }
    exists σ, π. split; cbn [j_trns j_posts]; try done.
    - intros t. destruct (j_trns j !! t) as [h|] eqn:Eh.
      + destruct (HI t h Eh) as (tp & E & _ & <-). rewrite <- in_snd. by rewrite !list_lookup_fmap, E.
      + apply lookup_ge_None in Eh. rewrite Sid by done. apply lookup_ge_None. rewrite fmap_length. lia.
    - intros i. destruct (j_posts j !! i) as [x|] eqn:Ex.
      + pose proof (Pat i ltac:(by eapply lookup_lt_Some)) as Hi.
        destruct (Forall2_lookup_l _ _ _ _ _ Hpl Hi) as (y & Hy & x' & Hx' & ->). rewrite Hy. simplify_eq. done.
      + apply lookup_ge_None in Ex. rewrite Pid by done. apply lookup_ge_None. lia.
    - intros t u h k Ht Hu Htu Ed. destruct (HI t h Ht) as (tp & Et & _ & <-). destruct (HI u k Hu) as (up & Eu & _ & <-).
      eapply (order_in_filter fst (λ e, key e = tp_date tp) I1); [|exact Et|exact Eu|done|exact (eq_sym Ed)|done].
      unfold I1. rewrite stable_sort_filter.
      + apply SSorted_filter. apply (imap_pair_sorted (journal_trns j) 0).
      + intros a b Ha Hb. unfold by_key. rewrite Ha, Hb. apply date_leb_refl.
    - intros i k x y Hx Hy Hik Et.
      eapply (order_in_filter (λ i, i) (λ i, (jp_trn <$> j_posts j !! i) = Some (jp_trn x)) Q).
      + exact (sorted_block (jp_trn x)).
      + apply Pat. by eapply lookup_lt_Some.
      + apply Pat. by eapply lookup_lt_Some.
      + by rewrite Hx.
      + rewrite Hy. simpl. by rewrite Et.
      + done.
  Qed.
End init.

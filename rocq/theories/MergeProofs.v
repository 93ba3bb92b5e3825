(** Proof that [merge] and [build] implement the reference semantics of
    MergeSpec.v. *)
From Verif Require Import Base Types CommentModel MergeModel SpecBase BaseProofs MergeSpec.
From Coq Require Import Lia.

(** ** Tags and fingerprints *)
Lemma starts_with_spec p s : starts_with p s = true ↔ ∃ r, s = p ++ r.
Proof.
  revert s; induction p as [|x p IH]; intros s; simpl; [by split; eauto|].
  destruct s as [|y s].
  - split; [done|intros [r [=]]].
  - rewrite andb_true_iff, N.eqb_eq, IH. split.
    + intros [-> [r ->]]. eauto.
    + intros [r [= -> ->]]. eauto.
Qed.
Lemma is_fingerprint_spec t : is_fingerprint t = true ↔ fp_tag t.
Proof. apply starts_with_spec. Qed.
Lemma is_candidate_spec t : is_candidate t = true ↔ candidate_tag t.
Proof. apply starts_with_spec. Qed.
Lemma unknown_not_fp : ¬ fp_tag UNKNOWN_ACCOUNT.
Proof. by intros [s [=]]. Qed.
Lemma unknown_not_candidate : ¬ candidate_tag UNKNOWN_ACCOUNT.
Proof. by intros [s [=]]. Qed.

Definition fps_of (p : posting_internal) : gset str := filter fp_tag (tags (pi_comment p)).
Lemma elem_of_fps p f : f ∈ fps_of p ↔ has_fp p f.
Proof. unfold fps_of, has_fp, has_tag. by rewrite elem_of_filter. Qed.
Lemma share_fp_fps p q : share_fp p q ↔ ¬ fps_of p ## fps_of q.
Proof.
  unfold share_fp. split.
  - intros (f & H1 & H2) Hd. apply elem_of_fps in H1, H2. set_solver.
  - intros H. destruct (decide (fps_of p ∩ fps_of q = ∅)) as [E|E]; [set_solver|].
    apply set_choose_L in E as [f Hf]. exists f. rewrite <- !elem_of_fps. set_solver.
Qed.
Lemma share_fp_sym p q : share_fp p q → share_fp q p.
Proof. intros (f & ? & ?). exists f. done. Qed.
Lemma share_fpb_spec p q : share_fpb p q = true ↔ share_fp p q.
Proof.
  unfold share_fpb, share_fp, has_fp, has_tag. rewrite existsb_exists. split.
  - intros (f & Hin & Hf%bool_decide_eq_true). apply elem_of_list_In, elem_of_elements in Hin.
    exists f. set_solver.
  - intros (f & [Hf H1] & _ & H2). exists f. split.
    + apply elem_of_list_In, elem_of_elements. set_solver.
    + by apply bool_decide_eq_true.
Qed.

Lemma elem_of_fingerprints ho p f : hash_order_ok ho →
  f ∈ fingerprints_from_comment ho (pi_comment p) ↔ has_fp p f.
Proof.
  intros (Hset & _). unfold fingerprints_from_comment, has_fp, has_tag.
  rewrite elem_of_list_filter, Hset, elem_of_elements, <- is_fingerprint_spec. done.
Qed.
Lemma NoDup_fingerprints ho c : hash_order_ok ho → NoDup (fingerprints_from_comment ho c).
Proof. intros (Hset & _). apply NoDup_filter. rewrite Hset. apply NoDup_elements. Qed.

Lemma existsb_ho ho (f : str → bool) s : hash_order_ok ho →
  existsb f (ho_set ho s) = true ↔ ∃ t, t ∈ s ∧ f t = true.
Proof.
  intros (Hset & _). rewrite existsb_exists. split; intros (t & Ht & Hf); exists t; split; auto.
  - apply elem_of_list_In in Ht. by rewrite Hset, elem_of_elements in Ht.
  - apply elem_of_list_In. by rewrite Hset, elem_of_elements.
Qed.

Lemma input_spec ho p d : hash_order_ok ho →
  (mergeable p ∧ input_from_posting_internal ho p d = Ok (Input d p)) ∨
  (¬ mergeable p ∧ ∃ e, input_from_posting_internal ho p d = Err e).
Proof.
  intros Hho. unfold input_from_posting_internal, mergeable, has_fp, has_tag.
  destruct (existsb is_candidate _) eqn:E1.
  { right. split; [|eauto]. apply existsb_ho in E1 as (t & Ht & Hc); [|done].
    apply is_candidate_spec in Hc. intros [_ H]. by apply (H t). }
  destruct (existsb is_fingerprint _) eqn:E2; simpl.
  - left. split; [|done]. apply existsb_ho in E2 as (f & Hf & Hfp); [|done].
    apply is_fingerprint_spec in Hfp. split; [eauto|].
    intros t Ht Hc%is_candidate_spec.
    assert (existsb is_candidate (ho_set ho (tags (pi_comment p))) = true) by (apply existsb_ho; eauto).
    congruence.
  - right. split; [|eauto]. intros [(f & Hfp & Hf) _].
    assert (existsb is_fingerprint (ho_set ho (tags (pi_comment p))) = true); [|congruence].
    apply existsb_ho; [done|]. exists f. by rewrite is_fingerprint_spec.
Qed.

(** ** Posting merge and tags *)
Lemma merge_posting_tags dest src t :
  t ∈ tags (pi_comment (merge_posting dest src)) ↔
  if decide (t = UNKNOWN_ACCOUNT) then t ∈ tags (pi_comment dest) ∧ t ∈ tags (pi_comment src)
  else t ∈ tags (pi_comment dest) ∨ t ∈ tags (pi_comment src).
Proof.
  unfold merge_posting.
  destruct (bool_decide _ && negb (bool_decide _)) eqn:E; simpl.
  - apply andb_true_iff in E as [E1%bool_decide_eq_true E2%negb_true_iff%bool_decide_eq_false].
    destruct (decide _) as [->|]; set_solver.
  - apply andb_false_iff in E as [E%bool_decide_eq_false|E%negb_false_iff%bool_decide_eq_true];
      destruct (decide _) as [->|]; set_solver.
Qed.
Lemma merge_posting_fp dest src f :
  has_fp (merge_posting dest src) f ↔ has_fp dest f ∨ has_fp src f.
Proof.
  unfold has_fp, has_tag. rewrite merge_posting_tags.
  destruct (decide _) as [->|]; [|naive_solver].
  pose proof unknown_not_fp. naive_solver.
Qed.
Lemma merge_posting_mergeable dest src :
  mergeable dest → mergeable src → mergeable (merge_posting dest src).
Proof.
  intros [(f & Hf) H1] [_ H2]. split.
  - exists f. apply merge_posting_fp. by left.
  - intros t. unfold has_tag. rewrite merge_posting_tags. destruct (decide _) as [->|].
    + intros _. apply unknown_not_candidate.
    + intros [?|?]; auto.
Qed.

(** ** Fingerprint registration *)
Lemma register_ok fps i m :
  (∀ f, f ∈ fps → m !! f = None ∨ m !! f = Some i) →
  ∃ m', register_fingerprints fps i m = (m', Ok tt) ∧
        ∀ f, m' !! f = if decide (f ∈ fps) then Some i else m !! f.
Proof.
  revert m; induction fps as [|fp fps IH]; intros m H; cbn [register_fingerprints].
  - exists m. split; [done|]. intros f. case_decide as E; [by apply elem_of_nil in E|done].
  - destruct (H fp) as [E|E]; [left|..]; rewrite E.
    + destruct (IH (<[fp := i]> m)) as (m' & -> & Hm').
      { intros f Hf. destruct (decide (f = fp)) as [->|].
        - right. by rewrite lookup_insert.
        - rewrite lookup_insert_ne by done. apply H. by right. }
      exists m'. split; [done|]. intros f. rewrite Hm'.
      destruct (decide (f ∈ fps)), (decide (f ∈ fp :: fps)); set_unfold; try naive_solver.
      * destruct (decide (f = fp)) as [->|]; [by rewrite lookup_insert|naive_solver].
      * rewrite lookup_insert_ne by naive_solver. done.
    + rewrite decide_True by done.
      destruct (IH m) as (m' & -> & Hm'). { intros f Hf. apply H. by right. }
      exists m'. split; [done|]. intros f. rewrite Hm'.
      destruct (decide (f ∈ fps)), (decide (f ∈ fp :: fps)); set_unfold; naive_solver.
Qed.

(** ** Index maintenance *)
Lemma push_positions {A} (key : A → date) (m : gmap date (list nat)) l x :
  (∀ d, m !! d = opt_list (positions (λ y, bool_decide (key y = d)) l)) →
  ∀ d, push_entry (key x) (length l) m !! d =
       opt_list (positions (λ y, bool_decide (key y = d)) (l ++ [x])).
Proof.
  intros H d. unfold push_entry. rewrite positions_snoc.
  destruct (decide (key x = d)) as [<-|Hne].
  - rewrite bool_decide_eq_true_2, lookup_insert, H by done.
    destruct (positions _ _); done.
  - rewrite bool_decide_eq_false_2, lookup_insert_ne, H, app_nil_r by done. done.
Qed.

Lemma imap_ext_lookup {A B} (f g : nat → A → B) l :
  (∀ i x, l !! i = Some x → f i x = g i x) → imap f l = imap g l.
Proof.
  intros H. apply list_eq. intros i. rewrite !list_lookup_imap.
  destruct (l !! i) eqn:E; simpl; [|done]. f_equal. auto.
Qed.
Lemma insert_imap {A B} (f g : nat → A → B) (l : list A) t x :
  l !! t = Some x → (∀ i y, i ≠ t → f i y = g i y) →
  <[t := g t x]> (imap f l) = imap g l.
Proof.
  intros Hx H. apply list_eq. intros i. rewrite list_lookup_imap.
  destruct (decide (i = t)) as [->|Hne].
  - rewrite list_lookup_insert, Hx; [done|]. rewrite imap_length. by eapply lookup_lt_Some.
  - rewrite list_lookup_insert_ne, list_lookup_imap by done.
    destruct (l !! i); simpl; [|done]. by rewrite H.
Qed.

Section rep.
  Context (ho : hash_order) (Hho : hash_order_ok ho).

  Lemma rep_new : represents merger_new journal_new.
  Proof.
    split; try done.
    intros f i. simpl. rewrite lookup_empty. split; [done|]. intros (x & Hx & _). done.
  Qed.

  (** Appending a new posting. *)
  Lemma rep_add m j t d p :
    represents m j → (t < length (j_trns j))%nat →
    (∀ x, x ∈ j_posts j → ¬ share_fp (jp_post x) p) →
    ∃ ip it idx, posts_add ho (m_posts m) (Input d p) t = (ip, Ok idx) ∧
      trns_add_post (m_trns m) t idx = (it, Ok tt) ∧
      represents (Merger ip it) (Journal (j_trns j) (j_posts j ++ [JP t d p])).
  Proof using Hho.
    intros [Hp Hd Hf Ht Htd] Hlt Hfresh.
    assert (length (post_arena (m_posts m)) = length (j_posts j)) as Hlen
      by by rewrite Hp, fmap_length.
    destruct (register_ok (fingerprints_from_comment ho (pi_comment p))
                (length (post_arena (m_posts m))) (post_by_fingerprint (m_posts m)))
      as (m' & Hreg & Hm').
    { intros f Hin. left. apply (elem_of_fingerprints ho p f Hho) in Hin.
      destruct (post_by_fingerprint _ !! f) as [i|] eqn:E; [|done].
      apply Hf in E as (x & Hx & Hxf). exfalso. apply (Hfresh x); [by eapply elem_of_list_lookup_2|].
      exists f. done. }
    unfold posts_add. simpl. rewrite Hreg.
    destruct (lookup_lt_is_Some_2 (j_trns j) t Hlt) as [h Hh].
    unfold trns_add_post. rewrite Ht, list_lookup_imap, Hh. simpl.
    eexists _, _, _. split; [done|]. split; [done|]. split; simpl.
    - rewrite Hp, fmap_app. done.
    - rewrite Hlen. apply (push_positions jp_date _ (j_posts j) (JP t d p)). done.
    - intros f i. rewrite Hm', Hlen. destruct (decide _) as [Hin|Hin].
      + apply (elem_of_fingerprints ho p f Hho) in Hin. split.
        * intros [= <-]. exists (JP t d p). split; [|done].
          rewrite lookup_app_r, Nat.sub_diag by lia. done.
        * intros (x & Hx & Hxf). f_equal. apply lookup_snoc_Some in Hx as [[Hi Hx]|[-> <-]]; [|done].
          exfalso. apply (Hfresh x); [by eapply elem_of_list_lookup_2|]. by exists f.
      + rewrite (elem_of_fingerprints ho p f Hho) in Hin. rewrite Hf. split.
        * intros (x & Hx & Hxf). exists x. split; [|done]. by apply lookup_app_l_Some.
        * intros (x & Hx & Hxf). apply lookup_snoc_Some in Hx as [[Hi Hx]|[-> <-]]; [by eauto|done].
    - assert (∀ t' (h' : transaction_internal),
        TrnHolder h' (positions (λ x, bool_decide (jp_trn x = t')) (j_posts j ++ [JP t d p])) =
        TrnHolder h' (positions (λ x, bool_decide (jp_trn x = t')) (j_posts j) ++
           if bool_decide (t = t') then [length (j_posts j)] else [])) as HE.
      { intros t' h'. by rewrite positions_snoc. }
      rewrite Hlen.
      etrans; [|apply (insert_imap (λ t0 h0, TrnHolder h0 (positions (λ x, bool_decide (jp_trn x = t0)) (j_posts j)))
        (λ t0 h0, TrnHolder h0 (positions (λ x, bool_decide (jp_trn x = t0)) (j_posts j ++ [JP t d p]))) (j_trns j) t h Hh)].
      + rewrite HE, bool_decide_eq_true_2 by done. done.
      + intros i y Hne. rewrite HE, bool_decide_eq_false_2, app_nil_r by done. done.
    - done.
  Qed.

  (** Merging into an existing posting. *)
  Lemma rep_merge_into m j i x d p :
    represents m j → j_posts j !! i = Some x →
    (∀ k y, j_posts j !! k = Some y → share_fp (jp_post y) p → k = i) →
    ∃ ip, posts_merge_into ho (m_posts m) i (Input d p) = (ip, Ok tt) ∧
      represents (Merger ip (m_trns m))
        (Journal (j_trns j)
           (alter (λ x, JP (jp_trn x) (jp_date x) (merge_posting (jp_post x) p)) i (j_posts j))).
  Proof using Hho.
    intros [Hp Hd Hf Ht Htd] Hx Hown.
    destruct (register_ok (fingerprints_from_comment ho (pi_comment p)) i
                (post_by_fingerprint (m_posts m))) as (m' & Hreg & Hm').
    { intros f Hin. apply (elem_of_fingerprints ho p f Hho) in Hin.
      destruct (post_by_fingerprint _ !! f) as [k|] eqn:E; [right|by left].
      apply Hf in E as (y & Hy & Hyf). f_equal. apply (Hown k y Hy). by exists f. }
    unfold posts_merge_into. simpl. rewrite Hreg, Hp, list_lookup_fmap, Hx. simpl.
    set (x' := JP (jp_trn x) (jp_date x) (merge_posting (jp_post x) p)).
    assert (alter (λ x, JP (jp_trn x) (jp_date x) (merge_posting (jp_post x) p)) i (j_posts j)
            = <[i := x']> (j_posts j)) as ->.
    { apply list_eq. intros k. destruct (decide (k = i)) as [->|].
      - rewrite list_lookup_alter, Hx, list_lookup_insert; [done|by eapply lookup_lt_Some].
      - by rewrite list_lookup_alter_ne, list_lookup_insert_ne by done. }
    eexists. split; [done|]. split; simpl.
    - by rewrite list_fmap_insert.
    - intros d'. rewrite Hd. by rewrite (positions_insert _ _ _ x' x Hx).
    - intros f k. rewrite Hm'. destruct (decide _) as [Hin|Hin].
      + apply (elem_of_fingerprints ho p f Hho) in Hin. split.
        * intros [= <-]. exists x'. split; [apply list_lookup_insert; by eapply lookup_lt_Some|].
          apply merge_posting_fp. by right.
        * intros (y & Hy & Hyf). f_equal. destruct (decide (k = i)) as [->|Hne]; [done|].
          rewrite list_lookup_insert_ne in Hy by done. symmetry. apply (Hown k y Hy). by exists f.
      + rewrite (elem_of_fingerprints ho p f Hho) in Hin. rewrite Hf. split.
        * intros (y & Hy & Hyf). destruct (decide (k = i)) as [->|Hne].
          -- exists x'. simplify_eq. split; [apply list_lookup_insert; by eapply lookup_lt_Some|].
             apply merge_posting_fp. by left.
          -- exists y. by rewrite list_lookup_insert_ne.
        * intros (y & Hy & Hyf). destruct (decide (k = i)) as [->|Hne].
          -- rewrite list_lookup_insert in Hy by (by eapply lookup_lt_Some). simplify_eq.
             apply merge_posting_fp in Hyf as [?|?]; [by eauto|done].
          -- rewrite list_lookup_insert_ne in Hy by done. eauto.
    - rewrite Ht. apply imap_ext_lookup. intros t h _. f_equal.
      by rewrite (positions_insert _ _ _ x' x Hx).
    - done.
  Qed.

  (** Adding an empty transaction. *)
  Lemma rep_add_trn m j h :
    represents m j → (∀ x, x ∈ j_posts j → (jp_trn x < length (j_trns j))%nat) →
    ∃ it, trns_add (m_trns m) (TrnHolder h []) = (it, length (j_trns j)) ∧
      represents (Merger (m_posts m) it) (Journal (j_trns j ++ [h]) (j_posts j)).
  Proof.
    intros [Hp Hd Hf Ht Htd] Hpar. unfold trns_add. simpl.
    assert (length (trn_arena (m_trns m)) = length (j_trns j)) as Hlen by by rewrite Ht, imap_length.
    rewrite Hlen. eexists. split; [done|]. split; simpl; try done.
    - rewrite Ht, imap_app. f_equal. simpl. f_equal. f_equal.
      symmetry. apply positions_nil. intros x Hx. apply bool_decide_eq_false.
      specialize (Hpar x Hx). lia.
    - apply (push_positions (λ h, t_date (ti_raw h))). done.
  Qed.
End rep.

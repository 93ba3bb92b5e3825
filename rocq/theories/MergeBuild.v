(** [build] returns the journal, stably sorted by date. *)
From Verif Require Import Base Types CommentModel MergeModel SpecBase BaseProofs MergeSpec MergeProofs MergePending MergeApply.
From Coq Require Import Lia.

(** An arena from which the slots in [R] have been removed. *)
Definition masked {A} (R : gset nat) (l : list A) : list (option A) :=
  imap (λ i a, if decide (i ∈ R) then None else Some a) l.
Lemma masked_empty {A} (l : list A) : masked ∅ l = Some <$> l.
Proof.
  apply list_eq. intros i. unfold masked. rewrite list_lookup_imap, list_lookup_fmap.
  destruct (l !! i); simpl; done.
Qed.
Lemma remove_masked {A} (R : gset nat) (l : list A) i a :
  l !! i = Some a → i ∉ R → arena_remove (masked R l) i = Ok (masked ({[i]} ∪ R) l, a).
Proof.
  intros Hi HR. unfold arena_remove, masked at 1. rewrite list_lookup_imap, Hi. simpl.
  rewrite decide_False by done. do 2 f_equal.
  apply list_eq. intros k. destruct (decide (k = i)) as [->|Hne].
  - rewrite list_lookup_insert. 2:{ unfold masked. rewrite imap_length. by eapply lookup_lt_Some. }
    unfold masked. rewrite list_lookup_imap, Hi. simpl. rewrite decide_True; [done|set_solver].
  - rewrite list_lookup_insert_ne by done. unfold masked. rewrite !list_lookup_imap.
    destruct (l !! k); simpl; [|done]. f_equal.
    destruct (decide (k ∈ R)), (decide (k ∈ {[i]} ∪ R)); set_solver.
Qed.
Lemma remove_all_masked {A} (l : list A) idxs : ∀ R,
  NoDup idxs → (∀ i, i ∈ idxs → (i < length l)%nat ∧ i ∉ R) →
  arena_remove_all (masked R l) idxs = Ok (masked (list_to_set idxs ∪ R) l, omap (λ i, l !! i) idxs).
Proof.
  induction idxs as [|i idxs IH]; intros R Hn Hi; cbn [arena_remove_all].
  - do 3 f_equal. set_solver.
  - apply NoDup_cons in Hn as [Hni Hn]. destruct (Hi i) as [Hlt HR]; [left|].
    apply lookup_lt_is_Some_2 in Hlt as [a Ha].
    rewrite (remove_masked R l i a) by done. cbn [rbind].
    rewrite IH; [| done |].
    + cbn [rbind]. csimpl. rewrite Ha.
      replace (list_to_set idxs ∪ ({[i]} ∪ R)) with ({[i]} ∪ list_to_set idxs ∪ R) by set_solver.
      done.
    + intros k Hk. destruct (Hi k) as [? ?]; [by right|]. split; [done|].
      assert (k ≠ i) by congruence. set_solver.
Qed.

Lemma date_trns_spec (l : list trn_holder) (dl : list (date * list nat)) : ∀ R,
  NoDup (dl ≫= (snd : _ → list nat)) → (∀ i, i ∈ dl ≫= (snd : _ → list nat) → (i < length l)%nat ∧ i ∉ R) →
  date_trns (masked R l) dl = Ok ((λ e : date * list nat, (e.1, omap (λ i, l !! i) e.2 : list trn_holder)) <$> dl).
Proof.
  induction dl as [|[d idxs] dl IH]; intros R Hn Hi; cbn [date_trns]; [done|].
  rewrite bind_cons in Hn, Hi. simpl in Hn, Hi. apply NoDup_app in Hn as (Hn1 & Hn2 & Hn3).
  rewrite remove_all_masked; [|done|].
  2:{ intros i Hin. apply Hi. apply elem_of_app. by left. }
  cbn [rbind]. rewrite IH; [done|done|].
  intros i Hin. destruct (Hi i) as [? ?]; [apply elem_of_app; by right|].
  split; [done|]. rewrite elem_of_union, elem_of_list_to_set. intros [?|?]; [|done]. by eapply Hn2.
Qed.

Lemma build_from_spec (l : list post_holder) hs : ∀ R,
  NoDup (hs ≫= th_postings) → (∀ i, i ∈ hs ≫= th_postings → (i < length l)%nat ∧ i ∉ R) →
  build_from (masked R l) hs =
  Ok ((λ h, TP (th_trn h) (ph_posting <$> omap (λ i, l !! i) (th_postings h))) <$> hs).
Proof.
  induction hs as [|h hs IH]; intros R Hn Hi; cbn [build_from]; [done|].
  rewrite bind_cons in Hn, Hi. apply NoDup_app in Hn as (Hn1 & Hn2 & Hn3).
  rewrite remove_all_masked; [|done|].
  2:{ intros i Hin. apply Hi. apply elem_of_app. by left. }
  cbn [rbind]. rewrite IH; [done|done|].
  intros i Hin. destruct (Hi i) as [? ?]; [apply elem_of_app; by right|].
  split; [done|]. rewrite elem_of_union, elem_of_list_to_set. intros [?|?]; [|done]. by eapply Hn2.
Qed.

Lemma stable_sort_fmap {A B} (f : A → B) leb leb' l :
  (∀ x y, leb (f x) (f y) = leb' x y) → stable_sort leb (f <$> l) = f <$> stable_sort leb' l.
Proof.
  intros H. assert (∀ x l, sort_insert leb (f x) (f <$> l) = f <$> sort_insert leb' x l) as Hi.
  { intros x k. induction k as [|y k IH]; csimpl; [done|].
    rewrite H. destruct (leb' x y); csimpl; [done|]. by rewrite IH. }
  induction l as [|x l IH]; csimpl; [done|]. by rewrite IH, Hi.
Qed.
Lemma NoDup_bind {A B} (f : A → list B) (l : list A) :
  (∀ x, x ∈ l → NoDup (f x)) →
  (∀ i k x y b, l !! i = Some x → l !! k = Some y → b ∈ f x → b ∈ f y → i = k) →
  NoDup (l ≫= f).
Proof.
  induction l as [|x l IH]; intros H1 H2; [constructor|].
  rewrite bind_cons. apply NoDup_app. split_and!.
  - apply H1. left.
  - intros b Hb (y & Hb' & Hy)%elem_of_list_bind.
    apply elem_of_list_lookup in Hy as [k Hk].
    assert (0%nat = S k); [|done]. by eapply (H2 0%nat (S k) x y b).
  - apply IH; [intros; apply H1; by right|].
    intros i k x' y b Hx Hy Hb Hb'. assert (S i = S k); [|lia].
    by eapply (H2 (S i) (S k) x' y b).
Qed.

Section build.
  Context (ho : hash_order) (Hho : hash_order_ok ho).

  Definition holders (j : journal) : list trn_holder :=
    imap (λ t h, TrnHolder h (positions (λ x, bool_decide (jp_trn x = t)) (j_posts j))) (j_trns j).
  Definition holder_date (h : trn_holder) : date := t_date (ti_raw (th_trn h)).

  Lemma holders_positions j d :
    positions (λ h, bool_decide (t_date (ti_raw h) = d)) (j_trns j) =
    positions (λ h, bool_decide (holder_date h = d)) (holders j).
  Proof.
    assert (j_trns j = th_trn <$> holders j) as E.
    { unfold holders. rewrite fmap_imap. apply list_eq. intros i. rewrite list_lookup_imap.
      destruct (j_trns j !! i); done. }
    rewrite E at 1. by rewrite positions_fmap.
  Qed.

  Lemma into_iter_spec m j : represents m j →
    trns_into_iter ho (m_trns m) = Ok (stable_sort (by_key holder_date) (holders j)).
  Proof using Hho.
    intros Hrep. unfold trns_into_iter.
    set (dl := ho_dates ho (list nat) (trns_by_date (m_trns m))).
    assert (∀ d l, (d, l) ∈ dl ↔ l ≠ [] ∧ l = positions (λ h, bool_decide (holder_date h = d)) (holders j)) as Hdl.
    { intros d l. unfold dl. destruct Hho as (_ & Hd & _). rewrite (Hd _ (trns_by_date (m_trns m))).
      rewrite elem_of_map_to_list, (rep_trns_by_date _ _ Hrep), holders_positions.
      destruct (positions _ _); simpl; naive_solver. }
    assert (NoDup (dl.*1)) as Hnd.
    { unfold dl. destruct Hho as (_ & Hd & _). rewrite (Hd _ (trns_by_date (m_trns m))).
      apply NoDup_fst_map_to_list. }
    rewrite (rep_trns _ _ Hrep). fold (holders j).
    rewrite <- masked_empty, (date_trns_spec (holders j) dl ∅).
    - cbn [rbind]. f_equal.
      set (gl := (λ e : date * list nat, (e.1, omap (λ i, holders j !! i) e.2 : list trn_holder)) <$> dl).
      assert (∀ d l, (d, l) ∈ gl ↔ l ≠ [] ∧ l = filter (λ h, holder_date h = d) (holders j)) as Hgl.
      { assert (∀ d, filter (λ h, is_true (bool_decide (holder_date h = d))) (holders j) =
                  filter (λ h, holder_date h = d) (holders j)) as Hfe.
        { intros d. apply list_filter_iff. intros h. unfold is_true. by rewrite bool_decide_eq_true. }
        intros d l. unfold gl. rewrite elem_of_list_fmap. split.
        - intros ([d' idxs] & [= -> ->] & Hin). apply Hdl in Hin as [Hne ->].
          rewrite omap_positions, Hfe. split; [|done].
          destruct (positions _ _) as [|i k] eqn:E; [done|].
          assert (i ∈ positions (λ h, bool_decide (holder_date h = d')) (holders j)) as Hi by (rewrite E; left).
          apply elem_of_positions in Hi as (h & Hh & Hb%bool_decide_eq_true).
          apply elem_of_list_lookup_2 in Hh. intros En.
          assert (h ∈ filter (λ h, holder_date h = d') (holders j)) as Hx
            by (by apply elem_of_list_filter).
          rewrite En in Hx. by apply elem_of_nil in Hx.
        - intros [Hne ->]. exists (d, positions (λ h, bool_decide (holder_date h = d)) (holders j)).
          split; [simpl; by rewrite omap_positions, Hfe|]. apply Hdl. split; [|done].
          intros E. apply Hne. rewrite positions_nil in E.
          destruct (filter _ _) as [|h k] eqn:Ef; [done|].
          assert (h ∈ filter (λ h, holder_date h = d) (holders j)) as Hx by (rewrite Ef; left).
          apply elem_of_list_filter in Hx as [Hx1 Hx2]. specialize (E h Hx2).
          apply bool_decide_eq_false in E. done. }
      assert (NoDup gl.*1) as Hngl.
      { unfold gl. rewrite <- list_fmap_compose. done. }
      set (sl := stable_sort (λ a b : date * list trn_holder, date_leb a.1 b.1) gl).
      assert (sl ≡ₚ gl) as Hsp by apply stable_sort_perm.
      assert (StronglySorted (λ a b, date_leb a.1 b.1 = true) sl) as Hss.
      { apply (stable_sort_sorted (by_key fst)); [apply by_key_total|apply by_key_trans]. }
      assert (NoDup sl.*1) as Hnsl by (by rewrite Hsp).
      assert (∀ d l, (d, l) ∈ sl ↔ l ≠ [] ∧ l = filter (λ h, holder_date h = d) (holders j)) as Hsl.
      { intros. rewrite Hsp. apply Hgl. }
      clearbody sl. clear Hsp Hgl Hngl gl.
      assert (∀ d l h, (d, l) ∈ sl → h ∈ l → holder_date h = d) as Hin.
      { intros d l h Hd Hh. apply Hsl in Hd as [_ ->]. by apply elem_of_list_filter in Hh as [? _]. }
      apply stable_sort_unique.
      + clear Hsl Hnsl. induction sl as [|[d l] sl IH]; [constructor|].
        apply StronglySorted_inv in Hss as [Hss Hall]. rewrite bind_cons. simpl.
        assert (StronglySorted (λ a b, date_leb (holder_date a) (holder_date b) = true) (sl ≫= snd)) as Hrest.
        { apply IH; [done|]. intros d' l' h' H1 H2. eapply Hin; [by right|done]. }
        assert (∀ h, h ∈ l → holder_date h = d) as Hl by (intros; eapply Hin; [left|done]).
        assert (∀ h, h ∈ sl ≫= snd → date_leb d (holder_date h) = true) as Hr.
        { intros h ([d' l'] & Hh & Hdl')%elem_of_list_bind. simpl in Hh.
          rewrite (Hin d' l' h); [|by right|done].
          rewrite Forall_forall in Hall. apply (Hall (d', l')). done. }
        clear IH Hin Hall. induction l as [|h l IH]; [done|]. simpl. constructor.
        * apply IH. intros; apply Hl; by right.
        * apply Forall_forall. intros h' [Hh'|Hh']%elem_of_app.
          -- rewrite (Hl h) by left. rewrite (Hl h') by (by right). apply date_leb_refl.
          -- rewrite (Hl h) by left. auto.
      + intros d. clear Hss.
        assert (∀ k : list (date * list trn_holder), (∀ e, e ∈ k → e ∈ sl) → NoDup k.*1 →
          filter (λ h, holder_date h = d) (k ≫= snd) =
          (if decide (d ∈ k.*1) then filter (λ h, holder_date h = d) (holders j) else [])) as Hk.
        { induction k as [|[d' l] k IH]; intros Hsub Hn.
          { rewrite decide_False; [done|]. by intros ?%elem_of_nil. }
          rewrite bind_cons, filter_app. csimpl. apply NoDup_cons in Hn as [Hd' Hn].
          rewrite IH by (done || (intros; apply Hsub; by right)).
          assert ((d', l) ∈ sl) as Hs by (apply Hsub; left).
          destruct (decide (d' = d)) as [->|Hne].
          - rewrite (decide_False (P := d ∈ k.*1)) by done.
            rewrite decide_True by left. rewrite app_nil_r.
            apply Hsl in Hs as [_ ->]. rewrite list_filter_filter.
            apply list_filter_iff. naive_solver.
          - assert (filter (λ h, holder_date h = d) l = []) as ->.
            { apply filter_nil_iff || idtac. destruct (filter _ l) as [|h r] eqn:E; [done|].
              assert (h ∈ filter (λ h, holder_date h = d) l) as Hh by (rewrite E; left).
              apply elem_of_list_filter in Hh as [Hh1 Hh2]. specialize (Hin _ _ _ Hs Hh2). congruence. }
            simpl. destruct (decide (d ∈ k.*1)), (decide (d ∈ d' :: k.*1)); set_solver. }
        rewrite (Hk sl) by done. destruct (decide (d ∈ sl.*1)) as [|Hn]; [done|].
        destruct (filter _ (holders j)) as [|h r] eqn:E; [done|].
        exfalso. apply Hn. apply elem_of_list_fmap. exists (d, h :: r). split; [done|].
        apply Hsl. by rewrite E.
    - apply NoDup_bind.
      + intros [d l] Hin. apply Hdl in Hin as [_ ->]. apply NoDup_positions.
      + intros i k [d l] [d' l'] b Hi Hk Hb Hb'. simpl in *.
        assert (d = d').
        { apply elem_of_list_lookup_2, Hdl in Hi as [_ ->]. apply elem_of_list_lookup_2, Hdl in Hk as [_ ->].
          apply elem_of_positions in Hb as (x & Hx & Hb%bool_decide_eq_true).
          apply elem_of_positions in Hb' as (y & Hy & Hb'%bool_decide_eq_true).
          simplify_eq. done. }
        subst d'. eapply (NoDup_lookup dl.*1); [done|..];
          rewrite list_lookup_fmap, ?Hi, ?Hk; done.
    - intros i ([d l] & Hi & Hin)%elem_of_list_bind. apply Hdl in Hin as [_ ->].
      split; [by eapply positions_lt|]. apply not_elem_of_empty.
  Qed.

  Theorem build_refines m j : represents m j →
    build ho m = Ok (stable_sort (by_key tp_date) (journal_trns j)).
  Proof using Hho.
    intros Hrep. unfold build. rewrite (into_iter_spec m j Hrep). cbn [rbind].
    rewrite <- masked_empty, build_from_spec.
    - f_equal.
      set (f := λ h, TP (th_trn h) (ph_posting <$> omap (λ i, post_arena (m_posts m) !! i) (th_postings h))).
      assert (journal_trns j = f <$> holders j) as ->.
      { unfold journal_trns, holders. rewrite fmap_imap. apply imap_ext_lookup. intros t h _. unfold f. simpl.
        f_equal. rewrite (rep_posts _ _ Hrep).
        pose proof (positions_fmap (λ h, bool_decide (ph_parent h = t))
          (λ x, PostHolder (jp_trn x) (jp_post x)) (j_posts j)) as E. simpl in E. rewrite <- E.
        rewrite omap_positions, filter_fmap', <- list_fmap_compose.
        f_equal. apply list_filter_iff. intros x. unfold is_true. simpl. by rewrite bool_decide_eq_true. }
      symmetry. apply stable_sort_fmap. done.
    - rewrite stable_sort_perm. apply NoDup_bind.
      + intros h (t & x & -> & _)%elem_of_lookup_imap. apply NoDup_positions.
      + intros i k x y b Hi Hk Hb Hb'. unfold holders in Hi, Hk. rewrite list_lookup_imap in Hi, Hk.
        destruct (j_trns j !! i) eqn:Ei; [|done]. destruct (j_trns j !! k) eqn:Ek; [|done].
        simplify_eq/=. apply elem_of_positions in Hb as (u & Hu & Hbu%bool_decide_eq_true).
        apply elem_of_positions in Hb' as (v & Hv & Hbv%bool_decide_eq_true). simplify_eq. done.
    - intros i Hi. rewrite stable_sort_perm in Hi.
      apply elem_of_list_bind in Hi as (h & Hi & Hh).
      apply elem_of_lookup_imap in Hh as (t & x & -> & _). simpl in Hi.
      apply positions_lt in Hi. rewrite (rep_posts _ _ Hrep), fmap_length. split; [done|].
      apply not_elem_of_empty.
  Qed.
End build.

(** ** Reachable mergers stand for well formed journals *)
Theorem reachable_represents m : reachable m → ∃ j, represents m j ∧ journal_wf j.
Proof.
  induction 1 as [|m ho tps Hm (j & Hrep & Hwf) Hho].
  - exists journal_new. split; [apply rep_new|]. split; simpl.
    + by intros x ?%elem_of_nil.
    + intros. lia.
    + by intros x ?%elem_of_nil.
    + intros i k p q Hi. done.
  - destruct (valid_set_cases ho Hho m j tps Hrep Hwf) as [Hv|Hv].
    + destruct (merge_accepts ho Hho m j tps Hrep Hwf Hv) as (Hwf' & m' & un & -> & Hrep' & _).
      eauto.
    + destruct (merge_rejects ho Hho m j tps Hrep Hwf Hv) as [e ->]. eauto.
Qed.

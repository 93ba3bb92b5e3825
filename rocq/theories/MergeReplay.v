(** Replaying the inputs of a journal on top of the journal (C18). *)
From Verif Require Import Base Types CommentModel MergeModel SpecBase BaseProofs MergeSpec MergeClaims
  MergeProofs MergePending MergeApply MergeBuild MergeClosed MergeLemmas MergePlaces MergeLaws MergeLaws2
  MergeLaws3 MergeLaws4.
From Coq Require Import Lia.
Local Open Scope nat_scope.

(** ** Merging the same sources again into what they produced *)
Record absorbed (x p : posting_internal) : Prop := {
  ab_tags : ∀ t, t ∈ tags (pi_comment p) → t ≠ UNKNOWN_ACCOUNT → t ∈ tags (pi_comment x);
  ab_lines : ∀ l, l ∈ lines (pi_comment p) → l ∈ lines (pi_comment x);
  ab_status : merge_status (p_status (pi_raw x)) (p_status (pi_raw p)) = p_status (pi_raw x);
  ab_balance : p_balance (pi_raw x) = None → p_balance (pi_raw p) = None;
  ab_unknown : UNKNOWN_ACCOUNT ∈ tags (pi_comment x) → UNKNOWN_ACCOUNT ∈ tags (pi_comment p);
}.
Definition with_values (x : posting_internal) (w : gmap str str) : posting_internal :=
  PI (pi_raw x) (Comment (lines (pi_comment x)) (tags (pi_comment x)) w).

Lemma absorbed_self p : absorbed p p.
Proof. split; auto. by destruct (p_status (pi_raw p)) as [[]|]. Qed.
Lemma absorbed_merge x p : absorbed (merge_posting x p) p.
Proof.
  split.
  - intros t Ht Hne. rewrite merge_posting_tags, decide_False by done. by right.
  - intros l Hl. rewrite merge_posting_lines. apply merge_lines_elem. by right.
  - rewrite merge_posting_status. by destruct (p_status (pi_raw x)) as [[]|], (p_status (pi_raw p)) as [[]|].
  - rewrite merge_posting_balance. by destruct (p_balance (pi_raw x)).
  - rewrite merge_posting_tags, decide_True by done. by intros [_ ?].
Qed.
Lemma absorbed_mono x p q : absorbed x p → absorbed (merge_posting x q) p.
Proof.
  intros [H1 H2 H3 H4 H5]. split.
  - intros t Ht Hne. rewrite merge_posting_tags, decide_False by done. left. auto.
  - intros l Hl. rewrite merge_posting_lines. apply merge_lines_elem. left. auto.
  - rewrite merge_posting_status. revert H3.
    by destruct (p_status (pi_raw x)) as [[]|], (p_status (pi_raw p)) as [[]|], (p_status (pi_raw q)) as [[]|].
  - rewrite merge_posting_balance. destruct (p_balance (pi_raw x)); [done|auto].
  - rewrite merge_posting_tags, decide_True by done. intros [? _]. auto.
Qed.
Lemma absorbed_values x w p : absorbed x p → absorbed (with_values x w) p.
Proof. intros [H1 H2 H3 H4 H5]. by split. Qed.
Lemma merge_absorbed x p : absorbed x p →
  merge_posting x p = with_values x (value_tags (pi_comment p) ∪ value_tags (pi_comment x)).
Proof.
  intros [H1 H2 H3 H4 H5]. pose proof (merge_posting_refines x p) as Hr. apply posting_internal_eq; simpl.
  - rewrite merge_posting_account.
    destruct (bool_decide_reflect (UNKNOWN_ACCOUNT ∈ tags (pi_comment x))) as [Hy|]; [|done].
    by rewrite (bool_decide_eq_true_2 (UNKNOWN_ACCOUNT ∈ tags (pi_comment p))) by auto.
  - apply Hr.
  - apply Hr.
  - rewrite merge_posting_balance. destruct (p_balance (pi_raw x)); auto.
  - by rewrite merge_posting_status.
  - apply Hr.
  - apply comment_eq; simpl.
    + rewrite merge_posting_lines. by apply merge_lines_sub.
    + intros t. rewrite merge_posting_tags. destruct (decide (t = UNKNOWN_ACCOUNT)) as [->|Hne].
      * split; [by intros [? _]|]. auto.
      * split; [|by left]. intros [?|?]; [done|]. auto.
    + by rewrite merge_posting_values.
Qed.
Definition vals (w : gmap str str) (l : list posting_internal) : gmap str str :=
  foldl (λ w p, value_tags (pi_comment p) ∪ w) w l.
Lemma vals_app w l : vals w l = vals ∅ l ∪ w.
Proof.
  unfold vals. revert w. induction l as [|p l IH]; intros w; simpl; [by rewrite map_empty_union|].
  rewrite (IH (_ ∪ w)), (IH (_ ∪ ∅)), map_union_empty. by rewrite (assoc_L (∪)).
Qed.
Lemma fold_absorbed x l : (∀ p, p ∈ l → absorbed x p) →
  foldl merge_posting x l = with_values x (vals (value_tags (pi_comment x)) l).
Proof.
  revert x. induction l as [|p l IH]; intros x H; simpl.
  - by destruct x as [? []].
  - rewrite merge_absorbed by (apply H; left). rewrite IH; [done|].
    intros q Hq. apply absorbed_values, H. by right.
Qed.
Lemma fold_all_absorbed x l p : absorbed x p ∨ p ∈ l → absorbed (foldl merge_posting x l) p.
Proof.
  revert x. induction l as [|q l IH]; intros x H; simpl.
  - destruct H as [?|?%elem_of_nil]; done.
  - apply IH. destruct H as [H|[->|H]%elem_of_cons].
    + left. by apply absorbed_mono.
    + left. apply absorbed_merge.
    + by right.
Qed.
Lemma fold_values x l : value_tags (pi_comment (foldl merge_posting x l)) = vals (value_tags (pi_comment x)) l.
Proof. revert x. induction l as [|q l IH]; intros x; simpl; [done|]. by rewrite IH, merge_posting_values. Qed.
Lemma fold_again p l : foldl merge_posting (foldl merge_posting p l) (p :: l) = foldl merge_posting p l.
Proof.
  rewrite fold_absorbed.
  - rewrite fold_values. rewrite vals_app. 
    assert (vals ∅ (p :: l) = vals (value_tags (pi_comment p)) l) as ->.
    { unfold vals. simpl. by rewrite map_union_empty. }
    rewrite (idemp_L (∪)). rewrite <- fold_values. by destruct (foldl merge_posting p l) as [? []].
  - intros q [->|Hq]%elem_of_cons; apply fold_all_absorbed; [left; apply absorbed_self|by right].
Qed.

(** ** Homes of sources *)
Definition sharing (x : posting_internal) (l : list posting_internal) : list posting_internal :=
  filter (λ p, share_fpb x p = true) l.
Lemma sharing_app x l k : sharing x (l ++ k) = sharing x l ++ sharing x k.
Proof. apply filter_app. Qed.
Lemma sharing_ext x y l : (∀ p, p ∈ l → share_fp x p ↔ share_fp y p) → sharing x l = sharing y l.
Proof. intros H. apply filter_ext'. intros p Hp. rewrite !share_fpb_spec. auto. Qed.

(** The sources in [S] are held by the postings [ps]. *)
Record homes (ps : list jpost) (S : list (list transaction_postings)) : Prop := {
  hm_home : ∀ s tp p, s ∈ S → tp ∈ s → p ∈ tp_posts tp →
    ∃ i x, ps !! i = Some x ∧ ∀ f, has_fp p f → has_fp (jp_post x) f;
  hm_group : ∀ s tp p q x y, s ∈ S → tp ∈ s → p ∈ tp_posts tp → q ∈ tp_posts tp → x ∈ ps → y ∈ ps →
    share_fp (jp_post x) p → share_fp (jp_post y) q → jp_trn x = jp_trn y;
  hm_one : ∀ s u v p q x, s ∈ S → all_posts s !! u = Some p → all_posts s !! v = Some q → x ∈ ps →
    share_fp (jp_post x) p → share_fp (jp_post x) q → u = v;
  hm_ok : ∀ s, s ∈ S → (∀ p, p ∈ all_posts s → mergeable p) ∧ fps_distinct (all_posts s) ∧
    ∀ tp, tp ∈ s → tp_posts tp ≠ [];
}.
Definition logged (ps : list jpost) (S : list (list transaction_postings)) : Prop :=
  ∀ x, x ∈ ps → ∃ p rest, sharing (jp_post x) (all_posts (mjoin S)) = p :: rest ∧
    jp_post x = foldl merge_posting p rest.

Lemma all_posts_app s t : all_posts (s ++ t) = all_posts s ++ all_posts t.
Proof. apply bind_app. Qed.
Lemma mjoin_snoc {A} (S : list (list A)) s : mjoin (S ++ [s]) = mjoin S ++ s.
Proof.
  induction S as [|x S IH]; simpl.
  - unfold mjoin. simpl. by rewrite app_nil_r.
  - unfold mjoin in *. simpl. by rewrite IH, (assoc_L (++)).
Qed.
Lemma all_posts_lookup s : ∀ u p, all_posts s !! u = Some p →
  ∃ a b tp, s !! a = Some tp ∧ tp_posts tp !! b = Some p ∧ u = length (all_posts (take a s)) + b.
Proof.
  induction s as [|tp s IH]; intros u p Hu; [done|].
  change (all_posts (tp :: s)) with (tp_posts tp ++ all_posts s) in Hu.
  apply lookup_app_Some in Hu as [Hu|[Hlen Hu]].
  - exists 0, u, tp. done.
  - destruct (IH _ _ Hu) as (a & b & tp' & Ha & Hb & E). exists (S a), b, tp'. split_and!; [done..|].
    simpl. change (all_posts (tp :: take a s)) with (tp_posts tp ++ all_posts (take a s)).
    rewrite app_length. lia.
Qed.
Lemma filter_one {A} (P : A → Prop) `{∀ x, Decision (P x)} (l : list A) :
  (∀ u v p q, l !! u = Some p → l !! v = Some q → P p → P q → u = v) →
  ∀ p, p ∈ l → P p → filter P l = [p].
Proof.
  induction l as [|x l IH]; intros Hu p Hp HP; [by apply elem_of_nil in Hp|].
  assert (∀ u v p q, l !! u = Some p → l !! v = Some q → P p → P q → u = v) as Hu'.
  { intros u v q r Hq Hr HQ HR. assert (S u = S v); [|lia]. by eapply (Hu (S u) (S v) q r). }
  destruct (decide (P x)) as [Hx|Hx].
  - rewrite filter_cons_True by done.
    assert (filter P l = []) as ->.
    { apply elem_of_nil_inv. intros q [HQ [v Hv]%elem_of_list_lookup]%elem_of_list_filter.
      assert (0 = S v); [|lia]. by eapply (Hu 0 (S v) x q). }
    apply elem_of_cons in Hp as [->|Hp]; [done|].
    apply elem_of_list_lookup in Hp as [v Hv]. assert (0 = S v); [|lia]. by eapply (Hu 0 (S v) x p).
  - rewrite filter_cons_False by done. apply IH; [done| |done].
    apply elem_of_cons in Hp as [->|?]; done.
Qed.
Lemma filter_none {A} (P : A → Prop) `{∀ x, Decision (P x)} (l : list A) :
  (∀ p, p ∈ l → ¬ P p) → filter P l = [].
Proof. intros Hn. apply elem_of_nil_inv. intros p [HP Hp]%elem_of_list_filter. by eapply Hn. Qed.

Lemma mergeable_fp p : mergeable p → ∃ f, has_fp p f.
Proof. by intros [? _]. Qed.
Lemma share_self_super x p : mergeable p → (∀ f, has_fp p f → has_fp x f) → share_fp x p.
Proof. intros [[f Hf] _] H. exists f. auto. Qed.

(** Postings of a well-formed list that share are the same. *)
Lemma wf_same j i k x y : journal_wf j → j_posts j !! i = Some x → j_posts j !! k = Some y →
  share_fp (jp_post x) (jp_post y) → i = k.
Proof.
  intros Hwf Hx Hy Hs. apply (jw_distinct _ Hwf i k (jp_post x) (jp_post y)); [| |done].
  - by rewrite list_lookup_fmap, Hx.
  - by rewrite list_lookup_fmap, Hy.
Qed.

(** ** One clean merge keeps the log *)
Section step.
  Context (j : journal) (S : list (list transaction_postings)) (s : list transaction_postings).
  Context (Hwf : journal_wf j) (Hv : valid_set j s) (Hwf' : journal_wf (spec_merge j s)).
  Context (Hclean : ∀ tp, tp ∈ s → left_out j tp = false).
  Context (Hh : homes (j_posts j) S) (Hl : logged (j_posts j) S).
  Local Notation j' := (spec_merge j s).

  Lemma old_lookup i x : j_posts j !! i = Some x →
    j_posts j' !! i = Some (JP (jp_trn x) (jp_date x) (foldl merge_posting (jp_post x) (merged_into j s i))).
  Proof.
    intros Hx. rewrite spec_merge_closed. cbn [j_posts]. rewrite lookup_app_l.
    - rewrite list_lookup_imap, Hx. done.
    - rewrite imap_length. by eapply lookup_lt_Some.
  Qed.
  Lemma fold_has_fp x l f : has_fp x f → has_fp (foldl merge_posting x l) f.
  Proof.
    revert x. induction l as [|p l IH]; intros x H; simpl; [done|]. apply IH. apply merge_posting_fp. by left.
  Qed.
  (** Each source of [s] has a place in [j'], in transaction [t] for its
      transaction. *)
  Lemma step_places : ∃ (loc : nat → nat → nat) (tr : nat → nat),
    (∀ a b tp p, s !! a = Some tp → tp_posts tp !! b = Some p → placed j s tp p (tr a) (loc a b)) ∧
    (∀ a b a' b' tp tp' p p', s !! a = Some tp → tp_posts tp !! b = Some p →
       s !! a' = Some tp' → tp_posts tp' !! b' = Some p' → loc a b = loc a' b' → a = a' ∧ b = b').
  Proof using Hwf Hv Hclean.
    set (pl := the_places j s).
    exists (λ a b, default 0 (pl !! a ≫= λ '(_, ls), ls !! b)), (λ a, default 0 (fst <$> pl !! a)).
    assert (∀ a b tp p, s !! a = Some tp → tp_posts tp !! b = Some p →
      ∃ t ls i, pl !! a = Some (t, ls) ∧ ls !! b = Some i ∧ placed j s tp p t i) as Hg.
    { intros a b tp p Ha Hp.
      assert (a < length pl) as Hlt.
      { unfold pl, the_places. rewrite places_length. by eapply lookup_lt_Some. }
      apply lookup_lt_is_Some in Hlt as [[t ls] Epl].
      assert (left_out j tp = false) as El by (apply Hclean; by eapply elem_of_list_lookup_2).
      destruct (place_of j s Hwf Hv a tp t ls Ha El Epl) as [Hlen H].
      assert (b < length ls) as Hlt by (rewrite Hlen; by eapply lookup_lt_Some).
      apply lookup_lt_is_Some in Hlt as [i Ei]. eauto 8. }
    split.
    - intros a b tp p Ha Hp. destruct (Hg a b tp p Ha Hp) as (t & ls & i & -> & E & ?). simpl. by rewrite E.
    - intros a b a' b' tp tp' p p' Ha Hp Ha' Hp' E.
      destruct (Hg a b tp p Ha Hp) as (t & ls & i & E1 & E2 & _).
      destruct (Hg a' b' tp' p' Ha' Hp') as (t' & ls' & i' & E1' & E2' & _).
      rewrite E1, E1' in E. simpl in E. rewrite E2, E2' in E. simpl in E. subst i'.
      pose proof (NoDup_places j s Hwf Hv) as Hnd. fold pl in Hnd.
      assert (a = a') as <-.
      { apply (NoDup_bind_pos snd pl a a' (t, ls) (t', ls') i); try done; by eapply elem_of_list_lookup_2. }
      split; [done|]. assert (ls' = ls) as -> by congruence.
      pose proof (NoDup_bind_elem snd pl a (t, ls) Hnd E1) as Hn. by eapply NoDup_lookup.
  Qed.
  Lemma placed_super tp p t i : p ∈ all_posts s → placed j s tp p t i →
    ∃ x, j_posts j' !! i = Some x ∧ jp_trn x = t ∧ ∀ f, has_fp p f → has_fp (jp_post x) f.
  Proof.
    intros Hp [[(x & _ & _ & _ & _ & H)|(_ & _ & H)]]; eexists; split_and!; try done.
    intros f Hf. simpl. apply merge_posting_fp. by right.
  Qed.

  (** Old sources keep their homes. *)
  Lemma old_home tp p s0 : s0 ∈ S → tp ∈ s0 → p ∈ tp_posts tp → ∃ i x x', j_posts j !! i = Some x ∧
    j_posts j' !! i = Some x' ∧ jp_trn x' = jp_trn x ∧ (∀ f, has_fp p f → has_fp (jp_post x) f) ∧
    (∀ f, has_fp p f → has_fp (jp_post x') f) ∧
    (∀ k y, j_posts j' !! k = Some y → share_fp (jp_post y) p → k = i).
  Proof using Hwf' Hh.
    intros Hs Htp Hp. destruct (hm_home _ _ Hh s0 tp p Hs Htp Hp) as (i & x & Hx & Hf).
    exists i, x. pose proof (old_lookup i x Hx) as Hx'. eexists. split_and!; [done|done|done|done|..].
    - intros f Hpf. simpl. apply fold_has_fp. auto.
    - intros k y Hy (f & Hyf & Hpf). eapply wf_same; [exact Hwf'|done|exact Hx'|]. exists f. split; [done|].
      simpl. apply fold_has_fp. auto.
  Qed.

  Lemma old_unique i x tp p s0 : s0 ∈ S → tp ∈ s0 → p ∈ tp_posts tp →
    j_posts j' !! i = Some x → share_fp (jp_post x) p →
    ∃ x0, j_posts j !! i = Some x0 ∧ jp_trn x0 = jp_trn x ∧ share_fp (jp_post x0) p.
  Proof using Hwf' Hh.
    intros Hs Htp Hp Hx Hsh. destruct (old_home tp p s0 Hs Htp Hp) as (k & y & y' & Hy & Hy' & Et & H1 & H2 & H3).
    assert (i = k) as -> by by eapply H3. exists y. split_and!; [done|congruence|].
    destruct Hsh as (f & _ & Hpf). exists f. auto.
  Qed.

  Lemma in_S_all p : p ∈ all_posts (mjoin S) → ∃ s0 tp, s0 ∈ S ∧ tp ∈ s0 ∧ p ∈ tp_posts tp.
  Proof.
    intros (tp & Hp & Htp)%elem_of_list_bind. apply elem_of_list_join in Htp as (s0 & Htp & Hs). eauto.
  Qed.
  Lemma in_s_pos p : p ∈ all_posts s → ∃ a b tp, s !! a = Some tp ∧ tp_posts tp !! b = Some p.
  Proof.
    intros (tp & [b Hb]%elem_of_list_lookup & [a Ha]%elem_of_list_lookup)%elem_of_list_bind. eauto.
  Qed.

  Lemma step_homes : homes (j_posts j') (S ++ [s]).
  Proof using Hwf Hv Hwf' Hclean Hh.
    destruct step_places as (loc & tr & Hpl & Hinj).
    assert (∀ a b tp p i x, s !! a = Some tp → tp_posts tp !! b = Some p → j_posts j' !! i = Some x →
      share_fp (jp_post x) p → i = loc a b ∧ jp_trn x = tr a) as Hnew.
    { intros a b tp p i x Ha Hb Hx (f & Hxf & Hpf).
      destruct (placed_super tp p (tr a) (loc a b)) as (y & Hy & Ht & Hyf); [|by apply Hpl|].
      { apply elem_of_list_bind. exists tp. split; by eapply elem_of_list_lookup_2. }
      assert (i = loc a b) as ->; [|split; [done|congruence]].
      eapply wf_same; [exact Hwf'|done|done|]. exists f. auto. }
    split.
    - intros s0 tp p [Hs| ->%elem_of_list_singleton]%elem_of_app Htp Hp.
      + destruct (old_home tp p s0 Hs Htp Hp) as (i & x & x' & _ & ? & _ & _ & ? & _). eauto.
      + apply elem_of_list_lookup in Htp as [a Ha]. pose proof Hp as [b Hb]%elem_of_list_lookup.
        destruct (placed_super tp p (tr a) (loc a b)) as (y & Hy & Ht & Hyf); [|by apply Hpl|eauto].
        apply elem_of_list_bind. exists tp. split; by eapply elem_of_list_lookup_2.
    - intros s0 tp p q x y [Hs| ->%elem_of_list_singleton]%elem_of_app Htp Hp Hq
        [i Hx]%elem_of_list_lookup [k Hy]%elem_of_list_lookup Hxp Hyq.
      + destruct (old_unique i x tp p s0 Hs Htp Hp Hx Hxp) as (x0 & Hx0 & <- & Hs1).
        destruct (old_unique k y tp q s0 Hs Htp Hq Hy Hyq) as (y0 & Hy0 & <- & Hs2).
        eapply (hm_group _ _ Hh s0 tp p q x0 y0); try done; by eapply elem_of_list_lookup_2.
      + apply elem_of_list_lookup in Htp as [a Ha]. apply elem_of_list_lookup in Hp as [b Hb].
        apply elem_of_list_lookup in Hq as [b' Hb'].
        destruct (Hnew a b tp p i x Ha Hb Hx Hxp) as [_ ->].
        destruct (Hnew a b' tp q k y Ha Hb' Hy Hyq) as [_ ->]. done.
    - intros s0 u v p q x [Hs| ->%elem_of_list_singleton]%elem_of_app Hu Hvv [i Hx]%elem_of_list_lookup Hxp Hxq.
      + destruct (all_posts_lookup _ _ _ Hu) as (a & b & tp & Ha & Hb & _).
        destruct (all_posts_lookup _ _ _ Hvv) as (a' & b' & tp' & Ha' & Hb' & _).
        apply elem_of_list_lookup_2 in Ha, Hb, Ha', Hb'.
        destruct (old_unique i x tp p s0 Hs Ha Hb Hx Hxp) as (x0 & Hx0 & _ & Hs1).
        destruct (old_unique i x tp' q s0 Hs Ha' Hb' Hx Hxq) as (y0 & Hy0 & _ & Hs2).
        assert (y0 = x0) as -> by congruence.
        eapply (hm_one _ _ Hh s0 u v p q x0); try done. by eapply elem_of_list_lookup_2.
      + destruct (all_posts_lookup _ _ _ Hu) as (a & b & tp & Ha & Hb & ->).
        destruct (all_posts_lookup _ _ _ Hvv) as (a' & b' & tp' & Ha' & Hb' & ->).
        destruct (Hnew a b tp p i x Ha Hb Hx Hxp) as [-> _].
        destruct (Hnew a' b' tp' q _ x Ha' Hb' Hx Hxq) as [E _].
        destruct (Hinj a b a' b' tp tp' p q) as [-> ->]; try done.
    - intros s0 [Hs| ->%elem_of_list_singleton]%elem_of_app.
      + by apply (hm_ok _ _ Hh).
      + split_and!; [apply Hv|apply Hv|]. intros tp Htp. specialize (Hclean tp Htp). by apply to_merge_spec in Hclean as [? _].
  Qed.

  Lemma step_logged : logged (j_posts j') (S ++ [s]).
  Proof using Hwf Hv Hwf' Hclean Hh Hl.
    pose proof step_homes as Hh'.
    intros x' [i Hx']%elem_of_list_lookup.
    assert (all_posts (mjoin (S ++ [s])) = all_posts (mjoin S) ++ all_posts s) as ->.
    { rewrite mjoin_snoc. apply all_posts_app. }
    rewrite sharing_app.
    assert (∀ p, p ∈ all_posts s → share_fp (jp_post x') p → sharing (jp_post x') (all_posts s) = [p]) as Hone.
    { intros p Hp Hsh. unfold sharing. apply filter_one; [|done|by rewrite share_fpb_spec].
      intros u v q r Hq Hr H1 H2. rewrite !share_fpb_spec in *.
      eapply (hm_one _ _ Hh' s u v q r x'); try done.
      - apply elem_of_app. right. by apply elem_of_list_singleton.
      - by eapply elem_of_list_lookup_2. }
    destruct (decide (i < length (j_posts j))) as [Hlt|Hge].
    - apply lookup_lt_is_Some in Hlt as [x Hx]. pose proof (old_lookup i x Hx) as E. rewrite Hx' in E. simplify_eq/=.
      assert (sharing (foldl merge_posting (jp_post x) (merged_into j s i)) (all_posts (mjoin S)) =
              sharing (jp_post x) (all_posts (mjoin S))) as ->.
      { apply sharing_ext. intros p (s0 & tp & Hs & Htp & Hp)%in_S_all. split.
        - intros Hsh. destruct (old_unique i _ tp p s0 Hs Htp Hp Hx' Hsh) as (x0 & Hx0 & _ & ?). by simplify_eq.
        - intros (f & Hf & Hpf). exists f. split; [|done]. by apply fold_has_fp. }
      destruct (Hl x) as (p & rest & -> & Ex); [by eapply elem_of_list_lookup_2|].
      eexists p, (rest ++ sharing _ (all_posts s)). split; [done|]. rewrite foldl_app, <- Ex. f_equal.
      destruct (merged_into j s i) as [|q l] eqn:Em.
      + symmetry. unfold sharing. apply filter_none. intros q Hq. rewrite share_fpb_spec. intros Hsh.
        destruct step_places as (loc & tr & Hpl & Hinj). destruct (in_s_pos q Hq) as (a & b & tp & Ha & Hb).
        destruct (placed_super tp q (tr a) (loc a b) Hq (Hpl a b tp q Ha Hb)) as (y & Hy & _ & Hyf).
        assert (i = loc a b) as ->.
        { eapply wf_same; [exact Hwf'|exact Hx'|exact Hy|]. destruct Hsh as (f & ? & ?). exists f. auto. }
        destruct (Hpl a b tp q Ha Hb) as [[(y0 & _ & _ & _ & E & _)|(Hge & _)]]; [congruence|].
        apply lookup_lt_Some in Hx. lia.
      + assert (q ∈ merged_into j s i) as Hq by (rewrite Em; left).
        pose proof (merged_into_one j s Hv i q Hq) as E1. rewrite Em in E1. simplify_eq.
        symmetry. apply Hone.
        * apply elem_of_merged_into in Hq as (tp & ? & _ & ? & _). apply elem_of_list_bind. eauto.
        * simpl. apply elem_of_merged_into in Hq as (tp & Htp & _ & Hp & _).
          assert (mergeable q) as Hm by (apply (vs_mergeable _ _ Hv), elem_of_list_bind; eauto).
          apply share_self_super; [done|]. intros f Hf. apply merge_posting_fp. by right.
    - (* a new posting *)
      pose proof Hx' as Hn. rewrite spec_merge_closed in Hn. cbn [j_posts] in Hn.
      rewrite lookup_app_r in Hn by (rewrite imap_length; lia).
      apply elem_of_list_lookup_2 in Hn. apply elem_of_new_posts in Hn as (tp & Htp & _ & Hp & _).
      assert (jp_post x' ∈ all_posts s) as Hin by (apply elem_of_list_bind; eauto).
      assert (sharing (jp_post x') (all_posts (mjoin S)) = []) as ->.
      { unfold sharing. apply filter_none. intros p (s0 & tp0 & Hs & Htp0 & Hp0)%in_S_all. rewrite share_fpb_spec.
        intros Hsh. destruct (old_unique i x' tp0 p s0 Hs Htp0 Hp0 Hx' Hsh) as (x0 & Hx0 & _).
        apply lookup_lt_Some in Hx0. lia. }
      rewrite (Hone (jp_post x') Hin).
      { exists (jp_post x'), []. done. }
      apply share_self_super; [|done]. by apply (vs_mergeable _ _ Hv).
  Qed.
End step.

(** ** Replaying one set *)
Section replay.
  Context (j : journal) (S : list (list transaction_postings)) (s : list transaction_postings).
  Context (Hwf : journal_wf j) (Hh : homes (j_posts j) S) (Hs : s ∈ S).

  Lemma replay_lookup tp p : tp ∈ s → p ∈ tp_posts tp → ∃ i x, j_posts j !! i = Some x ∧
    lookup_posting j (tp_date tp) p = VMerge i ∧ fp_hits j p = [i] ∧ share_fp (jp_post x) p ∧
    (∀ f, has_fp p f → has_fp (jp_post x) f).
  Proof using Hwf Hh Hs.
    intros Htp Hp. destruct (hm_home _ _ Hh s tp p Hs Htp Hp) as (i & x & Hx & Hf).
    assert (mergeable p) as Hm.
    { apply (hm_ok _ _ Hh s Hs). apply elem_of_list_bind. eauto. }
    assert (share_fp (jp_post x) p) as Hsh by by apply share_self_super.
    assert (fp_hits j p = [i]) as E.
    { apply NoDup_single; [apply NoDup_positions|]. split; [apply elem_of_fp_hits; eauto|].
      intros k (y & Hy & (f & Hyf & Hpf))%elem_of_fp_hits. eapply wf_same; [done..|]. exists f. auto. }
    exists i, x. split_and!; try done. unfold lookup_posting. by rewrite E.
  Qed.
  Lemma replay_kept tp : tp ∈ s → left_out j tp = false.
  Proof using Hwf Hh Hs.
    intros Htp. apply to_merge_spec. split; [by apply (hm_ok _ _ Hh s Hs)|].
    intros p Hp Ha%ambiguous_is. destruct (replay_lookup tp p Htp Hp) as (i & x & _ & E & _). by rewrite E in Ha.
  Qed.
  Lemma replay_valid : valid_set j s.
  Proof using Hwf Hh Hs.
    destruct (hm_ok _ _ Hh s Hs) as (H1 & H2 & H3).
    rewrite valid_set_declarative. split; [done|done|..].
    - intros p (tp & Hp & Htp)%elem_of_list_bind Hc%conflicting_spec.
      destruct (replay_lookup tp p Htp Hp) as (i & x & _ & _ & E & _). rewrite E in Hc. simpl in Hc. lia.
    - intros tp p q i k x y Htp _ Hp Hq Hi%selects_spec Hk%selects_spec Hx Hy.
      destruct (replay_lookup tp p Htp Hp) as (i' & x' & Hx' & E & _ & Hs1 & _).
      destruct (replay_lookup tp q Htp Hq) as (k' & y' & Hy' & E' & _ & Hs2 & _).
      assert (i' = i) as -> by congruence. assert (k' = k) as -> by congruence.
      assert (x' = x) as -> by congruence. assert (y' = y) as -> by congruence.
      eapply (hm_group _ _ Hh s tp p q); try done; by eapply elem_of_list_lookup_2.
    - intros a b a' b' tp tp' p p' i Ha Hb Ha' Hb' _ _ Hi%selects_spec Hi'%selects_spec.
      destruct (replay_lookup tp p) as (i1 & x & Hx & E & _ & Hs1 & _); [by eapply elem_of_list_lookup_2..|].
      destruct (replay_lookup tp' p') as (i2 & y & Hy & E' & _ & Hs2 & _); [by eapply elem_of_list_lookup_2..|].
      assert (i1 = i) as -> by congruence. assert (i2 = i) as -> by congruence. assert (y = x) as -> by congruence.
      assert (∀ a b tp p, s !! a = Some tp → tp_posts tp !! b = Some p →
        all_posts s !! (length (all_posts (take a s)) + b) = Some p) as Hpos.
      { clear. induction s as [|tp0 l IH]; intros a b tp p Ha Hb; [done|].
        change (all_posts (tp0 :: l)) with (tp_posts tp0 ++ all_posts l). destruct a as [|a]; simplify_eq/=.
        - rewrite lookup_app_l; [done|]. by eapply lookup_lt_Some.
        - change (all_posts (tp0 :: take a l)) with (tp_posts tp0 ++ all_posts (take a l)).
          rewrite app_length, lookup_app_r by lia.
          replace (length (tp_posts tp0) + length (all_posts (take a l)) + b - length (tp_posts tp0))
            with (length (all_posts (take a l)) + b) by lia. by eapply IH. }
      assert (length (all_posts (take a s)) + b = length (all_posts (take a' s)) + b') as E3.
      { eapply (hm_one _ _ Hh s _ _ p p' x Hs); eauto. by eapply elem_of_list_lookup_2. }
      (* the offsets determine the positions *)
      assert (∀ a a', a < a' → ∀ tp, s !! a = Some tp →
        length (all_posts (take a s)) + length (tp_posts tp) ≤ length (all_posts (take a' s))) as Hmono.
      { clear. intros a a' Hlt tp Ha. rewrite <- (take_drop (Datatypes.S a) (take a' s)).
        rewrite take_take, Nat.min_l by lia. rewrite (take_S_r _ _ _ Ha).
        rewrite !all_posts_app, !app_length. cbn. rewrite app_nil_r. lia. }
      apply lookup_lt_Some in Hb, Hb'.
      destruct (lt_eq_lt_dec a a') as [[Hlt| ->]|Hlt].
      + specialize (Hmono _ _ Hlt _ Ha). lia.
      + split; [done|lia].
      + specialize (Hmono _ _ Hlt _ Ha'). lia.
  Qed.

  Lemma replay_step : spec_merge j s =
    Journal (j_trns j) ((λ x, JP (jp_trn x) (jp_date x)
      (foldl merge_posting (jp_post x) (sharing (jp_post x) (all_posts s)))) <$> j_posts j).
  Proof using Hwf Hh Hs.
    pose proof replay_valid as Hv. rewrite spec_merge_closed.
    assert (∀ tp, tp ∈ s → dests j tp ≠ [] ∧ news_from (todo_of j tp) = []) as Hnn.
    { intros tp Htp. split.
      - destruct (hm_ok _ _ Hh s Hs) as (_ & _ & H3). specialize (H3 tp Htp).
        destruct (tp_posts tp) as [|p ps] eqn:Ep; [done|].
        destruct (replay_lookup tp p Htp) as (i & x & _ & E & _); [rewrite Ep; left|].
        intros En. assert (i ∈ dests j tp) as Hin.
        { unfold dests, verdicts. apply elem_of_list_omap. exists (VMerge i). split; [|done].
          apply elem_of_list_fmap. exists p. split; [done|]. rewrite Ep. left. }
        rewrite En in Hin. by apply elem_of_nil in Hin.
      - apply elem_of_nil_inv. intros p Hin. unfold news_from in Hin.
        apply elem_of_list_omap in Hin as ([q v] & Hin & E). apply elem_of_todo in Hin as (_ & Hq & ->).
        destruct (replay_lookup tp q Htp Hq) as (i & x & _ & Ev & _). simpl in E. by rewrite Ev in E. }
    assert (new_trns j s = []) as ->.
    { unfold new_trns. clear -Hnn. induction s as [|tp l IH]; [done|].
      rewrite filter_cons_False; [apply IH; intros; apply Hnn; by right|].
      unfold fresh. destruct (Hnn tp) as [H _]; [left|]. rewrite bool_decide_eq_false_2 by done.
      by rewrite andb_false_r. }
    assert (∀ n, new_posts j n s = []) as ->.
    { clear -Hnn. induction s as [|tp l IH]; intros n; [done|]. cbn [new_posts]. unfold new_of.
      destruct (Hnn tp) as [_ ->]; [left|]. apply IH. intros; apply Hnn; by right. }
    rewrite !app_nil_r. f_equal. apply list_eq. intros i. rewrite list_lookup_imap, list_lookup_fmap.
    destruct (j_posts j !! i) as [x|] eqn:Hx; [|done]. simpl. f_equal. unfold absorb. f_equal. f_equal.
    assert (∀ p, p ∈ all_posts s → share_fp (jp_post x) p ↔ p ∈ merged_into j s i) as Hiff.
    { intros p (tp & Hp & Htp)%elem_of_list_bind. rewrite elem_of_merged_into. split.
      - intros Hsh. exists tp. split_and!; [done|by apply replay_kept|done|].
        destruct (replay_lookup tp p Htp Hp) as (k & y & Hy & E & E' & _).
        assert (i ∈ fp_hits j p) as Hi by (apply elem_of_fp_hits; eauto). rewrite E' in Hi.
        apply elem_of_list_singleton in Hi. by subst.
      - intros (tp' & Htp' & _ & Hp' & E). destruct (replay_lookup tp' p Htp' Hp') as (k & y & Hy & E' & _ & ? & _).
        assert (k = i) as -> by congruence. by simplify_eq. }
    destruct (merged_into j s i) as [|q l] eqn:Em.
    - symmetry. apply filter_none. intros p Hp. rewrite share_fpb_spec. intros Hsh%Hiff; [|done]. by apply elem_of_nil in Hsh.
    - assert (q ∈ merged_into j s i) as Hq by (rewrite Em; left).
      pose proof (merged_into_one j s Hv i q Hq) as E1. rewrite Em in E1. simplify_eq.
      assert (q ∈ all_posts s) as Hin.
      { apply elem_of_merged_into in Hq as (tp & ? & _ & ? & _). apply elem_of_list_bind. eauto. }
      symmetry. apply filter_one; [|done|].
      + intros u v p p' Hu Hvv H1 H2. rewrite !share_fpb_spec in *.
        eapply (hm_one _ _ Hh s u v p p' x); try done. by eapply elem_of_list_lookup_2.
      + rewrite share_fpb_spec. apply Hiff; [done|]. left.
  Qed.
  Lemma fold_share x l q : (∀ p, p ∈ l → ∀ f, has_fp p f → has_fp x f) →
    share_fp (foldl merge_posting x l) q ↔ share_fp x q.
  Proof.
    intros H. assert (∀ f, has_fp (foldl merge_posting x l) f ↔ has_fp x f) as E.
    { intros f. revert x H. induction l as [|p l IH]; intros x H; simpl; [done|]. rewrite IH.
      - rewrite merge_posting_fp. split; [|by left]. intros [?|?]; [done|]. apply (H p); [left|done].
      - intros p' Hp' g Hg. apply merge_posting_fp. left. apply (H p'); [by right|done]. }
    unfold share_fp. by setoid_rewrite E.
  Qed.
  Lemma replay_super x p : x ∈ j_posts j → p ∈ sharing (jp_post x) (all_posts s) →
    ∀ f, has_fp p f → has_fp (jp_post x) f.
  Proof using Hwf Hh Hs.
    intros [i Hx]%elem_of_list_lookup [Hsh (tp & Hp & Htp)%elem_of_list_bind]%elem_of_list_filter f Hf.
    rewrite share_fpb_spec in Hsh.
    destruct (replay_lookup tp p Htp Hp) as (k & y & Hy & _ & E & _ & Hyf).
    assert (i ∈ fp_hits j p) as Hi by (apply elem_of_fp_hits; eauto). rewrite E in Hi.
    apply elem_of_list_singleton in Hi. subst. simplify_eq. auto.
  Qed.
  Lemma replay_homes : homes (j_posts (spec_merge j s)) S.
  Proof using Hwf Hh Hs.
    rewrite replay_step. cbn [j_posts].
    assert (∀ y q, y ∈ (λ x, JP (jp_trn x) (jp_date x)
      (foldl merge_posting (jp_post x) (sharing (jp_post x) (all_posts s)))) <$> j_posts j →
      share_fp (jp_post y) q →
      ∃ x, x ∈ j_posts j ∧ y = JP (jp_trn x) (jp_date x)
        (foldl merge_posting (jp_post x) (sharing (jp_post x) (all_posts s))) ∧ share_fp (jp_post x) q) as Hback.
    { intros y q (x & -> & Hx)%elem_of_list_fmap Hsh. exists x. split_and!; [done..|].
      simpl in Hsh. rewrite fold_share in Hsh; [done|]. intros. by eapply replay_super. }
    split.
    - intros s0 tp p Hs0 Htp Hp. destruct (hm_home _ _ Hh s0 tp p Hs0 Htp Hp) as (i & x & Hx & Hf).
      exists i. rewrite list_lookup_fmap, Hx. eexists. split; [done|]. intros f Hpf. simpl. apply fold_has_fp. auto.
    - intros s0 tp p q x y Hs0 Htp Hp Hq Hx Hy Hxp Hyq.
      destruct (Hback x p Hx Hxp) as (x0 & Hx0 & -> & ?). destruct (Hback y q Hy Hyq) as (y0 & Hy0 & -> & ?).
      simpl. by eapply (hm_group _ _ Hh s0 tp p q).
    - intros s0 u v p q x Hs0 Hu Hv Hx Hxp Hxq.
      destruct (Hback x p Hx Hxp) as (x0 & Hx0 & E & ?). subst x. cbn [jp_post] in Hxq.
      rewrite fold_share in Hxq by (intros; by eapply replay_super).
      by eapply (hm_one _ _ Hh s0 u v p q).
    - intros s0 Hs0. by apply (hm_ok _ _ Hh).
  Qed.
End replay.

(** ** Histories *)
Lemma clean_left_out j (s : list transaction_postings) :
  Forall2 (returned_as j) (filter (λ tp, left_out j tp = true) s) [] → ∀ tp, tp ∈ s → left_out j tp = false.
Proof.
  intros H%Forall2_nil_inv_r tp Htp. destruct (left_out j tp) eqn:E; [|done].
  assert (tp ∈ filter (λ tp, left_out j tp = true) s) as Hin by by apply elem_of_list_filter.
  rewrite H in Hin. by apply elem_of_nil in Hin.
Qed.
Lemma clean_filter j (s : list transaction_postings) :
  (∀ tp, tp ∈ s → left_out j tp = false) → filter (λ tp, left_out j tp = true) s = [].
Proof. intros H. apply filter_none. intros tp Htp. by rewrite (H tp Htp). Qed.

Lemma run_logged m runs m' j S :
  clean_run m runs m' → reachable m → represents m j → homes (j_posts j) S → logged (j_posts j) S →
  ∃ j', reachable m' ∧ represents m' j' ∧ homes (j_posts j') (S ++ runs.*2) ∧ logged (j_posts j') (S ++ runs.*2).
Proof.
  intros Hrun. revert j S. induction Hrun as [m|ho s m m1 runs m2 Hho E Hrun IH]; intros j S Hr Hj Hh Hl.
  - exists j. simpl. rewrite app_nil_r. done.
  - destruct (merge_inv m j Hr Hj ho s m1 [] Hho E) as (Hv & Hwf' & Hj1 & Hun).
    pose proof (clean_left_out j s Hun) as Hc. pose proof (reachable_wf m j Hr Hj) as Hwf.
    assert (reachable m1) as Hr1.
    { replace m1 with (merge ho m s).1 by by rewrite E. by constructor. }
    destruct (IH (spec_merge j s) (S ++ [s]) Hr1 Hj1) as (j' & ? & ? & ? & ?).
    + by apply step_homes.
    + by apply step_logged.
    + exists j'. simpl. by rewrite <- (assoc_L (++)) in *.
Qed.

Lemma replay_run j m (L : list (hash_order * list transaction_postings)) S :
  (∀ ho s, (ho, s) ∈ L → hash_order_ok ho ∧ s ∈ S) → reachable m → represents m j → homes (j_posts j) S →
  ∃ m', clean_run m L m' ∧ reachable m' ∧ represents m' (Journal (j_trns j) ((λ x, JP (jp_trn x) (jp_date x)
      (foldl merge_posting (jp_post x) (sharing (jp_post x) (all_posts (mjoin L.*2))))) <$> j_posts j)).
Proof.
  revert j m. induction L as [|[ho s] L IH]; intros j m HL Hr Hj Hh.
  - exists m. split; [constructor|]. split; [done|].
    replace (Journal _ _) with j; [done|]. destruct j as [ts ps]. f_equal. simpl.
    rewrite <- (list_fmap_id ps) at 1. apply list_fmap_ext. intros i x _. by destruct x.
  - destruct (HL ho s) as [Hho Hs]; [left|].
    pose proof (reachable_wf m j Hr Hj) as Hwf.
    pose proof (replay_valid j S s Hwf Hh Hs) as Hv.
    pose proof (replay_kept j S s Hwf Hh Hs) as Hk.
    destruct (merge ho m s) as [m1 r] eqn:E.
    destruct (merge_cases ho m j s m1 r Hho Hj Hwf E) as [(_ & Hwf1 & Hj1 & un & -> & Hun)|(Hnv & _)]; [|done].
    rewrite clean_filter in Hun by done. apply Forall2_nil_inv_l in Hun as ->.
    assert (reachable m1) as Hr1.
    { replace m1 with (merge ho m s).1 by by rewrite E. by constructor. }
    destruct (IH (spec_merge j s) m1) as (m' & Hrun & Hr' & Hj').
    + intros ho' s' Hin. apply HL. by right.
    + done.
    + done.
    + by apply replay_homes.
    + exists m'. split; [by econstructor|]. split; [done|].
      rewrite (replay_step j S s Hwf Hh Hs) in Hj'. cbn [j_trns j_posts] in Hj'.
      replace (Journal (j_trns j) _) with (Journal (j_trns j)
        ((λ x, JP (jp_trn x) (jp_date x) (foldl merge_posting (jp_post x)
          (sharing (jp_post x) (all_posts (mjoin L.*2))))) <$>
         ((λ x, JP (jp_trn x) (jp_date x)
           (foldl merge_posting (jp_post x) (sharing (jp_post x) (all_posts s)))) <$> j_posts j))); [done|].
      f_equal. rewrite <- list_fmap_compose. apply list_fmap_ext. intros i x Hx. simpl. f_equal.
      change (mjoin (s :: L.*2)) with (s ++ mjoin L.*2). rewrite all_posts_app, sharing_app, foldl_app. f_equal.
      apply sharing_ext. intros p _. apply fold_share. intros q Hq.
      apply (replay_super j S s Hwf Hh Hs x q); [by eapply elem_of_list_lookup_2|done].
Qed.

Lemma replay_logged j S : logged (j_posts j) S →
  (λ x, JP (jp_trn x) (jp_date x)
      (foldl merge_posting (jp_post x) (sharing (jp_post x) (all_posts (mjoin S))))) <$> j_posts j = j_posts j.
Proof.
  intros Hl. rewrite <- (list_fmap_id (j_posts j)) at 2. apply list_fmap_ext. intros i x Hx.
  destruct (Hl x) as (p & rest & E & Ex); [by eapply elem_of_list_lookup_2|].
  rewrite E, Ex, fold_again, <- Ex. by destruct x.
Qed.

(** Transfer to the journal made from the output. *)
Lemma unique_tp out a b tp tp' p : fps_distinct (all_posts out) → mergeable p →
  out !! a = Some tp → out !! b = Some tp' → p ∈ tp_posts tp → p ∈ tp_posts tp' → a = b.
Proof.
  intros Hd [[f Hf] _] Ha Hb [i Hi]%elem_of_list_lookup [k Hk]%elem_of_list_lookup.
  assert (∀ (l : list transaction_postings) a b, a < b → ∀ tp tp', l !! a = Some tp → l !! b = Some tp' →
    ∀ i k, tp_posts tp !! i = Some p → tp_posts tp' !! k = Some p →
    ∃ u v, all_posts l !! u = Some p ∧ all_posts l !! v = Some p ∧ u ≠ v) as Hlt.
  { clear. induction l as [|t0 l IH]; intros a b Hlt tp tp' Ha Hb i k Hi Hk; [done|].
    change (all_posts (t0 :: l)) with (tp_posts t0 ++ all_posts l). destruct b as [|b]; [lia|]. simpl in Hb.
    destruct a as [|a]; simplify_eq/=.
    - assert (p ∈ all_posts l) as [v Hv]%elem_of_list_lookup.
      { apply elem_of_list_bind. exists tp'. split; by eapply elem_of_list_lookup_2. }
      exists i, (length (tp_posts tp) + v). split_and!.
      + rewrite lookup_app_l; [done|]. by eapply lookup_lt_Some.
      + rewrite lookup_app_r by lia. by replace (_ + v - _) with v by lia.
      + apply lookup_lt_Some in Hi. lia.
    - destruct (IH a b) with (tp := tp) (tp' := tp') (i := i) (k := k) as (u & v & Hu & Hv & Hne); [lia|done|done|done|done|].
      exists (length (tp_posts t0) + u), (length (tp_posts t0) + v). split_and!.
      + rewrite lookup_app_r by lia. by replace (_ + u - _) with u by lia.
      + rewrite lookup_app_r by lia. by replace (_ + v - _) with v by lia.
      + lia. }
  assert (∀ u v, all_posts out !! u = Some p → all_posts out !! v = Some p → u = v) as Heq.
  { intros u v Hu Hv. eapply (Hd u v p p); try done. exists f. done. }
  destruct (lt_eq_lt_dec a b) as [[H| ->]|H]; [|done|].
  - destruct (Hlt out a b H tp tp' Ha Hb i k Hi Hk) as (u & v & ? & ? & []). auto.
  - destruct (Hlt out b a H tp' tp Hb Ha k i Hk Hi) as (u & v & ? & ? & []). auto.
Qed.

Lemma journal_trns_elem j x : x ∈ j_posts j → jp_trn x < length (j_trns j) →
  ∃ tp, journal_trns j !! jp_trn x = Some tp ∧ jp_post x ∈ tp_posts tp.
Proof.
  intros Hx [h Hh]%lookup_lt_is_Some. unfold journal_trns. eexists. rewrite list_lookup_imap, Hh. split; [done|].
  simpl. apply elem_of_list_fmap. exists x. split; [done|]. by apply elem_of_list_filter.
Qed.

Lemma homes_transfer ho m j out J S :
  hash_order_ok ho → represents m j → journal_wf j → build ho m = Ok out →
  journal_wf J → journal_trns J = out → homes (j_posts j) S → homes (j_posts J) S.
Proof.
  intros Hho Hj Hwf Hb HwfJ EJ Hh.
  assert (jp_post <$> j_posts J ≡ₚ jp_post <$> j_posts j) as Hperm.
  { rewrite <- (built_posts_perm ho m j out) by done. rewrite <- EJ. symmetry. apply journal_posts_perm, HwfJ. }
  assert (∀ x, x ∈ j_posts J → ∃ i y, j_posts j !! i = Some y ∧ jp_post y = jp_post x) as Hback.
  { intros x Hx. assert (jp_post x ∈ jp_post <$> j_posts j) as Hin.
    { rewrite <- Hperm. by apply elem_of_list_fmap_1. }
    apply elem_of_list_fmap in Hin as (y & E & [i Hi]%elem_of_list_lookup). eauto. }
  destruct (built_place ho m j out Hho Hj Hwf Hb) as (f & Hf1 & Hf2).
  assert (fps_distinct (all_posts out)) as Hd.
  { rewrite (built_posts_perm ho m j out) by done. apply Hwf. }
  split.
  - intros s tp p Hs Htp Hp. destruct (hm_home _ _ Hh s tp p Hs Htp Hp) as (i & x & Hx & Hxf).
    assert (jp_post x ∈ jp_post <$> j_posts J) as Hin.
    { rewrite Hperm. apply elem_of_list_fmap_1. by eapply elem_of_list_lookup_2. }
    apply elem_of_list_fmap in Hin as (y & E & [k Hk]%elem_of_list_lookup). exists k, y. rewrite <- E. done.
  - intros s tp p q x y Hs Htp Hp Hq Hx Hy Hxp Hyq.
    destruct (Hback x Hx) as (i & x0 & Hx0 & Ex). destruct (Hback y Hy) as (k & y0 & Hy0 & Ey).
    assert (jp_trn x0 = jp_trn y0) as Et.
    { eapply (hm_group _ _ Hh s tp p q x0 y0); try done; [by eapply elem_of_list_lookup_2..|by rewrite Ex|by rewrite Ey]. }
    destruct (Hf1 i x0 Hx0) as (tpx & Hox & Hpx & _). destruct (Hf1 k y0 Hy0) as (tpy & Hoy & Hpy & _).
    apply (Hf2 i k x0 y0 Hx0 Hy0) in Et.
    destruct (journal_trns_elem J x Hx) as (tx & Htx & Hinx); [by apply HwfJ|].
    destruct (journal_trns_elem J y Hy) as (ty & Hty & Hiny); [by apply HwfJ|].
    rewrite EJ in Htx, Hty.
    assert (jp_trn x = (f i).1) as ->.
    { eapply (unique_tp out _ _ tx tpx (jp_post x)); try done; [by apply HwfJ|]. rewrite <- Ex. by eapply elem_of_list_lookup_2. }
    assert (jp_trn y = (f k).1) as ->.
    { eapply (unique_tp out _ _ ty tpy (jp_post y)); try done; [by apply HwfJ|]. rewrite <- Ey. by eapply elem_of_list_lookup_2. }
    done.
  - intros s u v p q x Hs Hu Hv Hx Hxp Hxq. destruct (Hback x Hx) as (i & x0 & Hx0 & Ex). rewrite <- Ex in *.
    eapply (hm_one _ _ Hh s u v p q x0); try done. by eapply elem_of_list_lookup_2.
  - apply (hm_ok _ _ Hh).
Qed.
Lemma logged_transfer ho m j out J S :
  hash_order_ok ho → represents m j → journal_wf j → build ho m = Ok out →
  journal_wf J → journal_trns J = out → logged (j_posts j) S → logged (j_posts J) S.
Proof.
  intros Hho Hj Hwf Hb HwfJ EJ Hl x Hx.
  assert (jp_post <$> j_posts J ≡ₚ jp_post <$> j_posts j) as Hperm.
  { rewrite <- (built_posts_perm ho m j out) by done. rewrite <- EJ. symmetry. apply journal_posts_perm, HwfJ. }
  assert (jp_post x ∈ jp_post <$> j_posts j) as Hin.
  { rewrite <- Hperm. by apply elem_of_list_fmap_1. }
  apply elem_of_list_fmap in Hin as (y & -> & Hy). by apply Hl.
Qed.

Lemma homes_nil ps : homes ps [].
Proof. split; [intros s ? ? Hs|intros s ? ? ? ? ? Hs|intros s ? ? ? ? ? Hs|intros s Hs]; by apply elem_of_nil in Hs. Qed.

Lemma replay_all runs m ho out : clean_run merger_new runs m → hash_order_ok ho → build ho m = Ok out →
  ∀ hos, length hos = S (length runs) → Forall hash_order_ok hos →
  ∃ m', clean_run merger_new (zip hos (out :: runs.*2)) m' ∧ ∀ ho', hash_order_ok ho' → build ho' m' = Ok out.
Proof.
  intros Hrun Hho Hb hos Hlen Hhos.
  destruct (run_logged merger_new runs m journal_new [] Hrun reach_new rep_new) as (j & Hr & Hj & Hh & Hl).
  { apply homes_nil. } { intros x Hx. by apply elem_of_nil in Hx. }
  simpl in Hh, Hl. pose proof (reachable_wf m j Hr Hj) as Hwf.
  destruct hos as [|ho1 hos]; [done|]. apply Forall_cons in Hhos as [Hho1 Hhos].
  destruct (rebuild m ho ho1 ho out Hr Hho Hho1 Hho Hb) as (m1 & Hm1 & Hb1).
  assert (reachable m1) as Hr1.
  { replace m1 with (merge ho1 merger_new out).1 by by rewrite Hm1. constructor; [constructor|done]. }
  destruct (merge_inv merger_new journal_new reach_new rep_new ho1 out m1 [] Hho1 Hm1) as (Hv & HwfJ & HJ & Hun).
  set (J := spec_merge journal_new out) in *.
  assert (journal_trns J = out) as EJ.
  { unfold J. rewrite spec_merge_all_new.
    - simpl. apply filter_all. intros tp Htp. by eapply (no_empties m j Hr Hj ho out).
    - intros x Hx. by apply elem_of_nil in Hx.
    - done. }
  pose proof (homes_transfer ho m j out J _ Hho Hj Hwf Hb HwfJ EJ Hh) as HhJ.
  pose proof (logged_transfer ho m j out J _ Hho Hj Hwf Hb HwfJ EJ Hl) as HlJ.
  assert ((zip hos runs.*2).*2 = runs.*2) as Ez.
  { apply snd_zip. rewrite fmap_length. simpl in Hlen. lia. }
  destruct (replay_run J m1 (zip hos runs.*2) runs.*2) as (m' & Hrun' & Hr' & Hj').
  - intros h s Hin. split.
    + apply elem_of_zip_l in Hin. by eapply Forall_forall in Hhos.
    + by apply elem_of_zip_r in Hin.
  - done.
  - done.
  - done.
  - rewrite Ez, (replay_logged J) in Hj' by done.
    assert (represents m' J) as HJ' by by destruct J.
    assert (m' = m1) as -> by by eapply represents_merger.
    exists m1. split; [by econstructor|].
    intros ho' Hho'. rewrite (build_refines ho' Hho' m1 J HJ). f_equal.
    symmetry. by apply (build_inv ho m1 J).
Qed.

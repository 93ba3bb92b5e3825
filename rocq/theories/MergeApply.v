(** The apply phase of [merge] carries out [spec_merge]; [merge] and [build]
    refine the reference semantics. *)
From Verif Require Import Base Types CommentModel MergeModel SpecBase BaseProofs MergeSpec MergeProofs MergePending.
From Coq Require Import Lia.

(** Well-formedness without "transactions have postings", which does not hold
    half way through a transaction. *)
Record jinv (j : journal) : Prop := {
  ji_parent : ∀ x, x ∈ j_posts j → (jp_trn x < length (j_trns j))%nat;
  ji_mergeable : ∀ x, x ∈ j_posts j → mergeable (jp_post x);
  ji_distinct : fps_distinct (jp_post <$> j_posts j);
}.

(** Postings still to be applied. *)
Record todo_ok (ps : list jpost) (l : list (posting_internal * verdict)) : Prop := {
  td_safe : ∀ p v k y, (p, v) ∈ l → ps !! k = Some y → share_fp (jp_post y) p → v = VMerge k;
  td_distinct : fps_distinct l.*1;
  td_lt : ∀ p i, (p, VMerge i) ∈ l → (i < length ps)%nat;
  td_mergeable : ∀ p v, (p, v) ∈ l → mergeable p;
  td_verdict : ∀ p v, (p, v) ∈ l → v = VNew ∨ ∃ i, v = VMerge i;
}.

Lemma todo_tail ps pv l : todo_ok ps (pv :: l) → todo_ok ps l.
Proof.
  intros [H1 H2 H3 H4 H5]. split.
  - intros. eapply H1; [by right|done..].
  - intros i k p q Hi Hk Hs. assert (S i = S k); [|lia]. eapply H2; simpl; eauto.
  - intros. eapply H3. by right.
  - intros. eapply H4. by right.
  - intros. eapply H5. by right.
Qed.

Lemma share_merge dest src p :
  share_fp (merge_posting dest src) p → share_fp dest p ∨ share_fp src p.
Proof.
  intros (f & Hf & Hp). apply merge_posting_fp in Hf as [Hf|Hf]; [left|right]; by exists f.
Qed.

Lemma apply_posting_keys t d ps pv :
  ∃ l, (λ x, (jp_trn x, jp_date x)) <$> apply_posting t d ps pv =
       ((λ x, (jp_trn x, jp_date x)) <$> ps) ++ l.
Proof.
  unfold apply_posting. destruct (pv.2).
  - exists []. rewrite app_nil_r. apply list_eq. intros k. rewrite !list_lookup_fmap.
    destruct (decide (k = i)) as [->|].
    + rewrite list_lookup_alter. by destruct (ps !! i).
    + by rewrite list_lookup_alter_ne by done.
  - exists [(t, d)]. by rewrite fmap_app.
  - exists []. by rewrite app_nil_r.
  - exists []. by rewrite app_nil_r.
Qed.
Lemma apply_postings_keys t d pvs ps :
  ∃ l, (λ x, (jp_trn x, jp_date x)) <$> foldl (apply_posting t d) ps pvs =
       ((λ x, (jp_trn x, jp_date x)) <$> ps) ++ l.
Proof.
  revert ps; induction pvs as [|pv pvs IH]; intros ps; simpl.
  - exists []. by rewrite app_nil_r.
  - destruct (IH (apply_posting t d ps pv)) as [l E]. rewrite E.
    destruct (apply_posting_keys t d ps pv) as [l' E']. rewrite E'.
    exists (l' ++ l). by rewrite app_assoc.
Qed.
Lemma keys_length (ps ps' : list jpost) l :
  (λ x, (jp_trn x, jp_date x)) <$> ps' = ((λ x, (jp_trn x, jp_date x)) <$> ps) ++ l →
  (length ps ≤ length ps')%nat.
Proof. intros E%(f_equal length). rewrite app_length, !fmap_length in E. lia. Qed.

Lemma alter_lookup_cases {A} (f : A → A) i (l : list A) k y :
  alter f i l !! k = Some y →
  (k = i ∧ ∃ x, l !! i = Some x ∧ y = f x) ∨ (k ≠ i ∧ l !! k = Some y).
Proof.
  destruct (decide (k = i)) as [->|Hne].
  - rewrite list_lookup_alter. intros E. left. split; [done|].
    destruct (l !! i) as [x|]; simplify_eq/=. eauto.
  - rewrite list_lookup_alter_ne by done. eauto.
Qed.

Lemma step_todo t d ps pv l :
  todo_ok ps (pv :: l) → todo_ok (apply_posting t d ps pv) l.
Proof.
  intros H. pose proof (todo_tail _ _ _ H) as [H1 H2 H3 H4 H5].
  assert (∀ p v, (p, v) ∈ l → ¬ share_fp (pv.1) p) as Hfresh.
  { intros p v Hin Hs. apply elem_of_list_lookup in Hin as [i Hi].
    assert (0%nat = S i); [|lia].
    apply (td_distinct _ _ H _ _ (pv.1) p); simpl; [done| |done].
    rewrite list_lookup_fmap, Hi. done. }
  split; try done.
  - intros p v k y Hin Hk Hs. unfold apply_posting in Hk. destruct pv as [q w]; simpl in *.
    destruct w as [i| |am|]; eauto.
    + apply alter_lookup_cases in Hk as [(-> & x & Hx & ->)|[Hne Hk]]; [|by eauto].
      simpl in Hs. apply share_merge in Hs as [Hs|Hs]; [by eauto|].
      exfalso. by eapply Hfresh.
    + apply lookup_snoc_Some in Hk as [[_ Hk]|[-> <-]]; [by eauto|].
      exfalso. by eapply Hfresh.
  - intros p i Hin. destruct (apply_posting_keys t d ps pv) as [l' E]. apply keys_length in E.
    specialize (H3 _ _ Hin). lia.
Qed.

Lemma step_inv ts t d ps pv l :
  (t < length ts)%nat → jinv (Journal ts ps) → todo_ok ps (pv :: l) →
  jinv (Journal ts (apply_posting t d ps pv)).
Proof.
  intros Ht [Hp Hm Hd] [H1 H2 H3 H4 H5]. destruct pv as [p v]. simpl in *.
  assert ((p, v) ∈ (p, v) :: l) as Hin by left.
  unfold apply_posting; simpl. destruct (H5 p v Hin) as [->|[i ->]].
  - split; simpl.
    + intros x [Hx| ->%elem_of_list_singleton]%elem_of_app; [auto|done].
    + intros x [Hx| ->%elem_of_list_singleton]%elem_of_app; [auto|by eapply H4].
    + rewrite fmap_app. simpl. intros a b x y Ha Hb Hs.
      apply lookup_snoc_Some in Ha as [[La Ha]|[-> <-]], Hb as [[Lb Hb]|[-> <-]]; [by eapply Hd| | |done].
      * rewrite list_lookup_fmap in Ha. destruct (ps !! a) as [z|] eqn:E; simplify_eq/=.
        specialize (H1 _ _ _ _ Hin E Hs). done.
      * rewrite list_lookup_fmap in Hb. destruct (ps !! b) as [z|] eqn:E; simplify_eq/=.
        specialize (H1 _ _ _ _ Hin E (share_fp_sym _ _ Hs)). done.
  - assert (∀ k y, alter (λ x, JP (jp_trn x) (jp_date x) (merge_posting (jp_post x) p)) i ps !! k = Some y →
      ∃ x, ps !! k = Some x ∧ jp_trn y = jp_trn x ∧
        (jp_post y = jp_post x ∨ k = i ∧ jp_post y = merge_posting (jp_post x) p)) as Halt.
    { intros k y [(-> & x & Hx & ->)|[Hne Hk]]%alter_lookup_cases; eauto 10. }
    split; simpl.
    + intros x [k Hk]%elem_of_list_lookup. apply Halt in Hk as (x' & Hx' & -> & _).
      eapply Hp. by eapply elem_of_list_lookup_2.
    + intros x [k Hk]%elem_of_list_lookup. apply Halt in Hk as (x' & Hx' & _ & [-> |[-> ->]]).
      * eapply Hm. by eapply elem_of_list_lookup_2.
      * apply merge_posting_mergeable; [|by eapply H4].
        eapply Hm. by eapply elem_of_list_lookup_2.
    + intros a b x y Ha Hb Hs. rewrite list_lookup_fmap in Ha, Hb.
      destruct (alter _ i ps !! a) as [xa|] eqn:Ea; [|done].
      destruct (alter _ i ps !! b) as [xb|] eqn:Eb; [|done]. simplify_eq/=.
      apply Halt in Ea as (xa' & Ea & _ & HA), Eb as (xb' & Eb & _ & HB).
      assert (share_fp (jp_post xa') (jp_post xb') → a = b) as Hdd.
      { apply Hd; by rewrite list_lookup_fmap, ?Ea, ?Eb. }
      assert (∀ k z, ps !! k = Some z → share_fp (jp_post z) p → k = i) as Hown.
      { intros k z Hz Hsz. specialize (H1 _ _ _ _ Hin Hz Hsz). congruence. }
      destruct HA as [EA|[-> EA]], HB as [EB|[-> EB]]; [| | |done].
      * apply Hdd. by rewrite <- EA, <- EB.
      * rewrite EA, EB in Hs. apply share_fp_sym, share_merge in Hs as [Hs|Hs].
        -- apply Hdd. by apply share_fp_sym.
        -- eapply Hown; [done|]. by apply share_fp_sym.
      * rewrite EA, EB in Hs. apply share_merge in Hs as [Hs|Hs]; [by apply Hdd|].
        symmetry. eapply Hown; [done|]. by apply share_fp_sym.
Qed.

Section apply.
  Context (ho : hash_order) (Hho : hash_order_ok ho).

  Lemma apply_posts_sim t d pvs : ∀ m j rest,
    represents m j → jinv j → (t < length (j_trns j))%nat → todo_ok (j_posts j) (pvs ++ rest) →
    let j' := Journal (j_trns j) (foldl (apply_posting t d) (j_posts j) pvs) in
    (∃ m', apply_post_actions ho m t (act_of d <$> pvs) = (m', Ok tt) ∧ represents m' j') ∧
    jinv j' ∧ todo_ok (j_posts j') rest.
  Proof using Hho.
    induction pvs as [|[p v] pvs IH]; intros m [ts ps] rest Hrep Hinv Ht Htd.
    - split; [by eauto|done].
    - pose proof (step_inv ts t d ps _ _ Ht Hinv Htd) as Hinv'.
      pose proof (step_todo t d ps _ _ Htd) as Htd'.
      assert ((p, v) ∈ (p, v) :: pvs ++ rest) as Hin by left.
      assert (∃ m1, represents m1 (Journal ts (apply_posting t d ps (p, v))) ∧
        apply_post_actions ho m t (act_of d (p, v) :: (act_of d <$> pvs)) =
        apply_post_actions ho m1 t (act_of d <$> pvs)) as (m1 & Hm1 & E).
      { unfold act_of at 1. simpl. destruct (td_verdict _ _ Htd _ _ Hin) as [->|[i ->]].
        - destruct (rep_add ho Hho m (Journal ts ps) t d p Hrep Ht) as (ip & it & idx & E1 & E2 & Hr).
          { intros x Hx Hs. apply elem_of_list_lookup in Hx as [k Hk].
            specialize (td_safe _ _ Htd _ _ _ _ Hin Hk Hs). done. }
          exists (Merger ip it). split; [done|]. by rewrite E1, E2.
        - pose proof (td_lt _ _ Htd _ _ Hin) as Hlt. simpl in Hlt.
          apply lookup_lt_is_Some_2 in Hlt as [x Hx].
          destruct (rep_merge_into ho Hho m (Journal ts ps) i x d p Hrep Hx) as (ip & E1 & Hr).
          { intros k y Hy Hs. specialize (td_safe _ _ Htd _ _ _ _ Hin Hy Hs). congruence. }
          exists (Merger ip (m_trns m)). split; [done|]. by rewrite E1. }
      cbn zeta. cbn [foldl]. rewrite fmap_cons, E.
      apply (IH m1 (Journal ts (apply_posting t d ps (p, v))) rest); done.
  Qed.

  Lemma fold_new_nonempty t d pvs ps :
    pvs ≠ [] → (∀ pv, pv ∈ pvs → pv.2 = VNew) →
    ∃ x, x ∈ foldl (apply_posting t d) ps pvs ∧ jp_trn x = t.
  Proof.
    destruct pvs as [|[p v] pvs]; [done|]. intros _ H. simpl.
    specialize (H (p, v) (elem_of_list_here _ _)). simpl in H. subst.
    destruct (apply_postings_keys t d pvs (apply_posting t d ps (p, VNew))) as [l E].
    assert ((t, d) ∈ (λ x, (jp_trn x, jp_date x)) <$>
              foldl (apply_posting t d) (apply_posting t d ps (p, VNew)) pvs) as Hin.
    { rewrite E. unfold apply_posting. simpl. rewrite fmap_app. simpl. set_solver. }
    apply elem_of_list_fmap in Hin as (x & [= -> ->] & Hx). eauto.
  Qed.

  Lemma no_dests_new j tp : dests j tp = [] →
    (∀ v, v ∈ verdicts j tp → v = VNew ∨ ∃ i, v = VMerge i) →
    ∀ pv, pv ∈ zip (tp_posts tp) (verdicts j tp) → pv.2 = VNew.
  Proof.
    intros Hd Hv [p v] Hin. apply elem_of_zip_r in Hin. simpl.
    destruct (Hv v Hin) as [->|[i ->]]; [done|]. exfalso.
    assert (i ∈ dests j tp) as Hi.
    { unfold dests. apply elem_of_list_omap. exists (VMerge i). done. }
    rewrite Hd in Hi. by apply elem_of_nil in Hi.
  Qed.

  Definition todo_of (j : journal) (tp : transaction_postings) : list (posting_internal * verdict) :=
    if left_out j tp then [] else zip (tp_posts tp) (verdicts j tp).

  Lemma trns_have_posts_mono ps t d pvs x :
    x ∈ ps → ∃ y, y ∈ foldl (apply_posting t d) ps pvs ∧ jp_trn y = jp_trn x.
  Proof.
    intros Hx. destruct (apply_postings_keys t d pvs ps) as [l E].
    assert ((jp_trn x, jp_date x) ∈ (λ x, (jp_trn x, jp_date x)) <$>
              foldl (apply_posting t d) ps pvs) as Hin.
    { rewrite E. apply elem_of_app. left. apply elem_of_list_fmap. eauto. }
    apply elem_of_list_fmap in Hin as (y & [= E1 E2] & Hy). eauto.
  Qed.

  Lemma dest_trns_nil j tp : dest_trns j tp = [] → dests j tp = [].
  Proof.
    unfold dest_trns. pose proof (dests_valid j tp) as Hv. destruct (dests j tp) as [|i l]; [done|].
    destruct (lookup_lt_is_Some_2 (j_posts j) i) as [x Hx]; [apply Hv; left|].
    simpl. rewrite Hx. done.
  Qed.


  Lemma jinv_of_wf j : journal_wf j → jinv j.
  Proof. intros [H1 H2 H3 H4]. by split. Qed.

  Lemma left_out_posts j tp : left_out j tp = false → tp_posts tp ≠ [].
  Proof. unfold left_out. by destruct (tp_posts tp). Qed.

  Lemma apply_trn_sim j0 tp a rest m j pending :
    (length (j_trns j0) ≤ length (j_trns j))%nat → journal_wf j0 → journal_wf j →
    action_for j0 tp a → represents m j →
    todo_ok (j_posts j) (todo_of j0 tp ++ rest) →
    journal_wf (apply_trn j0 j tp) ∧ todo_ok (j_posts (apply_trn j0 j tp)) rest ∧
    (length (j_trns j0) ≤ length (j_trns (apply_trn j0 j tp)))%nat ∧
    ∃ m', represents m' (apply_trn j0 j tp) ∧
      if left_out j0 tp then m' = m ∧ ∃ tp', returned_as j0 tp tp' ∧
         apply_pending ho m (a :: pending) =
           (let '(m2, r) := apply_pending ho m' pending in (m2, rmap (λ l, tp' :: l) r))
      else apply_pending ho m (a :: pending) = apply_pending ho m' pending.
  Proof using Hho.
    intros Hlen Hwf0 Hwf Ha Hrep Htd.
    unfold action_for in Ha. unfold apply_trn. unfold todo_of in Htd.
    destruct (left_out j0 tp) eqn:El.
    { destruct Ha as (tp' & -> & Hret). simpl in Htd.
      split; [done|]. split; [done|]. split; [done|]. exists m. split; [done|]. split; [done|].
      exists tp'. done. }
    change (dests j0 tp ≫= (λ i, option_list (jp_trn <$> j_posts j0 !! i))) with (dest_trns j0 tp).
    pose proof (left_out_posts _ _ El) as Hne.
    destruct (dest_trns j0 tp) as [|t ts] eqn:Ed.
    - subst a. pose proof Hwf as [Hpar Hnon Hmrg Hdis].
      destruct (rep_add_trn m j (tp_trn tp) Hrep Hpar) as (it & Eit & Hrep1).
      destruct (apply_posts_sim (length (j_trns j)) (tp_date tp) (zip (tp_posts tp) (verdicts j0 tp))
        (Merger (m_posts m) it) (Journal (j_trns j ++ [tp_trn tp]) (j_posts j)) rest)
        as ((m' & Hm' & Hr') & [Hi1 Hi2 Hi3] & Htd'); try done.
      { split; simpl; try done. intros x Hx. specialize (Hpar x Hx). rewrite app_length. lia. }
      { simpl. rewrite app_length. simpl. lia. }
      cbn [j_trns j_posts] in *. split; [|split; [done|split; [rewrite app_length; lia|]]].
      + split; simpl; try done. rewrite app_length. simpl. intros t Ht.
        destruct (decide (t = length (j_trns j))) as [->|].
        * apply fold_new_nonempty.
          -- destruct (tp_posts tp) eqn:E; [done|]. unfold verdicts. rewrite E. done.
          -- apply no_dests_new; [by apply dest_trns_nil|].
             intros v Hv. apply elem_of_list_lookup in Hv as [k Hk].
             destruct (lookup_lt_is_Some_2 (tp_posts tp) k) as [p Hp].
             { apply lookup_lt_Some in Hk. unfold verdicts in Hk. by rewrite fmap_length in Hk. }
             eapply (td_verdict _ _ Htd p v). apply elem_of_app. left.
             apply elem_of_list_lookup. exists k. rewrite lookup_zip_with, Hp. simpl. by rewrite Hk.
        * destruct (Hnon t) as (x & Hx & <-); [lia|]. by apply trns_have_posts_mono.
      + exists m'. split; [done|]. cbn [apply_pending]. rewrite Eit, Hm'. done.
    - subst a.
      assert (t < length (j_trns j))%nat as Ht.
      { assert (t ∈ dest_trns j0 tp) as Hin by (rewrite Ed; left).
        apply elem_of_dest_trns in Hin as (i & x & _ & Hx & <-).
        apply elem_of_list_lookup_2, (jw_parent _ Hwf0) in Hx. lia. }
      destruct (apply_posts_sim t (tp_date tp) (zip (tp_posts tp) (verdicts j0 tp)) m j rest)
        as ((m' & Hm' & Hr') & [Hi1 Hi2 Hi3] & Htd'); try done.
      { by apply jinv_of_wf. }
      cbn [j_trns j_posts] in *. split; [|split; [done|split; [done|]]].
      + split; simpl; try done. intros t' Ht'.
        destruct (jw_nonempty _ Hwf t' Ht') as (x & Hx & <-). by apply trns_have_posts_mono.
      + exists m'. split; [done|]. cbn [apply_pending]. rewrite Hm'. done.
  Qed.

  Lemma apply_pending_sim j0 tps pending : Forall2 (action_for j0) tps pending → ∀ m j,
    (length (j_trns j0) ≤ length (j_trns j))%nat → journal_wf j0 → journal_wf j → represents m j →
    todo_ok (j_posts j) (tps ≫= todo_of j0) →
    journal_wf (foldl (apply_trn j0) j tps) ∧
    ∃ m' un, apply_pending ho m pending = (m', Ok un) ∧
      represents m' (foldl (apply_trn j0) j tps) ∧
      Forall2 (returned_as j0) (filter (λ tp, left_out j0 tp = true) tps) un.
  Proof using Hho.
    induction 1 as [|tp a tps pending Ha Hs IH]; intros m j Hlen Hwf0 Hwf Hrep Htd.
    - simpl. split; [done|]. exists m, []. split; [done|]. split; [done|]. constructor.
    - rewrite bind_cons in Htd.
      destruct (apply_trn_sim j0 tp a _ m j pending Hlen Hwf0 Hwf Ha Hrep Htd)
        as (Hwf1 & Htd1 & Hlen1 & m1 & Hrep1 & Hap).
      destruct (IH m1 _ Hlen1 Hwf0 Hwf1 Hrep1 Htd1) as (Hwf2 & m2 & un & E2 & Hrep2 & Hun).
      split; [done|]. destruct (left_out j0 tp) eqn:El.
      + destruct Hap as [-> (tp' & Hret & E)]. exists m2, (tp' :: un).
        rewrite E, E2. split; [done|]. split; [done|].
        rewrite filter_cons_True by done. by constructor.
      + exists m2, un. rewrite Hap, E2. split; [done|]. split; [done|].
        rewrite filter_cons_False by congruence. done.
  Qed.

  Lemma lookup_not_conflict j d p v :
    (length (fp_hits j p) ≤ 1)%nat → lookup_posting j d p = v → is_ambiguous v = false →
    v = VNew ∨ ∃ i, v = VMerge i.
  Proof.
    intros Hl <-. unfold lookup_posting. destruct (fp_hits j p) as [|? [|? ?]]; [|by eauto|simpl in Hl; lia].
    destruct (soft_hits j d p) as [|? [|? ?]]; by eauto.
  Qed.

  Lemma elem_of_todo j tp p v : (p, v) ∈ todo_of j tp ↔
    left_out j tp = false ∧ p ∈ tp_posts tp ∧ v = lookup_posting j (tp_date tp) p.
  Proof.
    unfold todo_of, verdicts. destruct (left_out j tp).
    { split; [by intros ?%elem_of_nil|]. naive_solver. }
    induction (tp_posts tp) as [|q ps IH]; csimpl.
    - split; [by intros ?%elem_of_nil|]. intros (_ & ?%elem_of_nil & _). done.
    - rewrite !elem_of_cons, IH. split; [|naive_solver].
      intros [[= -> ->]|(_ & ? & ->)]; naive_solver.
  Qed.

  Lemma initial_todo j tps : journal_wf j → valid_set j tps → todo_ok (j_posts j) (tps ≫= todo_of j).
  Proof.
    intros Hwf Hv.
    assert (∀ p v, (p, v) ∈ tps ≫= todo_of j → ∃ tp, tp ∈ tps ∧ left_out j tp = false ∧
      p ∈ tp_posts tp ∧ v = lookup_posting j (tp_date tp) p) as Hin.
    { intros p v (tp & Hp & Htp)%elem_of_list_bind. apply elem_of_todo in Hp. naive_solver. }
    split.
    - intros p v k y (tp & Htp & _ & Hp & ->)%Hin Hk Hs.
      pose proof (vs_no_conflict _ _ Hv tp p Htp Hp) as Hl.
      assert (k ∈ fp_hits j p) as Hkin by (apply elem_of_fp_hits; eauto).
      unfold lookup_posting. destruct (fp_hits j p) as [|a [|b l]]; [by apply elem_of_nil in Hkin| |simpl in Hl; lia].
      apply elem_of_list_singleton in Hkin. by subst.
    - assert (sublist (tps ≫= todo_of j).*1 (all_posts tps)) as Hsub.
      { clear Hv Hin. induction tps as [|tp tps IH]; [constructor|].
        change (all_posts (tp :: tps)) with (tp_posts tp ++ all_posts tps).
        rewrite bind_cons, fmap_app. apply sublist_app; [|done].
        unfold todo_of. destruct (left_out j tp); [apply sublist_nil_l|].
        rewrite fst_zip; [done|]. unfold verdicts. by rewrite fmap_length. }
      pose proof (vs_distinct _ _ Hv) as Hd. revert Hd. clear -Hsub.
      generalize dependent ((tps ≫= todo_of j).*1). intros l Hsub.
      induction Hsub as [|p l k Hsub IH|p l k Hsub IH]; intros Hd.
      + done.
      + assert (fps_distinct k) as Hk.
        { intros a b x y Ha Hb Hs. assert (S a = S b); [|lia]. eapply Hd; eauto. }
        specialize (IH Hk). intros a b x y Ha Hb Hs.
        assert (∀ n z, l !! n = Some z → share_fp p z → False) as Hp.
        { intros n z Hz Hpz. apply elem_of_list_lookup_2 in Hz.
          eapply elem_of_submseteq in Hz; [|by apply sublist_submseteq].
          apply elem_of_list_lookup in Hz as [n' Hn'].
          assert (0%nat = S n'); [|lia]. eapply Hd; [..|done]; done. }
        destruct a as [|a], b as [|b]; simplify_eq/=; try done.
        * exfalso. eapply Hp; eauto.
        * exfalso. eapply Hp; [eauto|]. by apply share_fp_sym.
        * f_equal. eapply IH; eauto.
      + apply IH. intros a b x y Ha Hb Hs. assert (S a = S b); [|lia]. eapply Hd; eauto.
    - intros p i (tp & Htp & Hl & Hp & E)%Hin.
      apply (dests_valid j tp). unfold dests. apply elem_of_list_omap. exists (VMerge i).
      split; [|done]. unfold verdicts. rewrite E. apply elem_of_list_fmap. eauto.
    - intros p v (tp & Htp & _ & Hp & _)%Hin. apply (vs_mergeable _ _ Hv).
      apply elem_of_list_bind. eauto.
    - intros p v (tp & Htp & Hl & Hp & ->)%Hin.
      eapply lookup_not_conflict; [by eapply vs_no_conflict|done|].
      unfold left_out in Hl. destruct (tp_posts tp) as [|q ps] eqn:E; [done|].
      rewrite <- E in *. clear E.
      destruct (is_ambiguous (lookup_posting j (tp_date tp) p)) eqn:Ea; [|done].
      assert (existsb is_ambiguous (verdicts j tp) = true); [|congruence].
      apply existsb_exists. eexists. split; [|done]. apply elem_of_list_In, elem_of_list_fmap. eauto.
  Qed.

  (** ** Refinement: [merge] *)
  Theorem merge_accepts m j tps : represents m j → journal_wf j → valid_set j tps →
    journal_wf (spec_merge j tps) ∧
    ∃ m' un, merge ho m tps = (m', Ok un) ∧ represents m' (spec_merge j tps) ∧
      Forall2 (returned_as j) (filter (λ tp, left_out j tp = true) tps) un.
  Proof using Hho.
    intros Hrep Hwf Hv. pose proof Hv as Hv'. rewrite (valid_set_iff ho Hho m j Hrep Hwf) in Hv'.
    destruct Hv' as [Hok Hnd]. unfold merge, make_pending.
    destruct (make_pending_spec ho Hho m j Hrep Hwf tps ∅) as [(_ & pending & Hp & ->)|[Hn _]]; [|by destruct Hn].
    destruct (check_pending_spec m j Hrep tps pending Hp) as [[_ ->]|[? _]]; [|done].
    apply (apply_pending_sim j tps pending Hp m j); try done. by apply initial_todo.
  Qed.
  Theorem merge_rejects m j tps : represents m j → journal_wf j → ¬ valid_set j tps →
    ∃ e, merge ho m tps = (m, Err e).
  Proof using Hho.
    intros Hrep Hwf Hv. rewrite (valid_set_iff ho Hho m j Hrep Hwf) in Hv. unfold merge, make_pending.
    destruct (make_pending_spec ho Hho m j Hrep Hwf tps ∅) as [(Hok & pending & Hp & ->)|[? [e ->]]]; [|by eauto].
    destruct (check_pending_spec m j Hrep tps pending Hp) as [[? _]|[? ->]]; [|by eauto]. naive_solver.
  Qed.
  Lemma valid_set_cases m j tps : represents m j → journal_wf j →
    valid_set j tps ∨ ¬ valid_set j tps.
  Proof using Hho.
    intros Hrep Hwf. rewrite (valid_set_iff ho Hho m j Hrep Hwf).
    destruct (make_pending_spec ho Hho m j Hrep Hwf tps ∅) as [(Hok & pending & Hp & _)|[? _]]; [|naive_solver].
    destruct (check_pending_spec m j Hrep tps pending Hp) as [[? _]|[? _]]; naive_solver.
  Qed.
End apply.

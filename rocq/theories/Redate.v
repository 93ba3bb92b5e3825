(** Moving dates (C145). *)
From Verif Require Import MergeClaims.
From Verif Require Import Base Types SpecBase BaseProofs CommentModel MergeModel CmdModel MergeSpec CmdClaims RedateClaims
  MergeProofs MergePending MergeApply MergeBuild MergeClosed MergeLemmas MergePlaces MergeLaws2.
From Coq Require Import Lia.
Local Open Scope nat_scope.

Section redate.
Context (D : date → Prop) (f : date → date) (Ho : keeps_order D f).

Lemma earlier_leb a b : earlier a b ↔ date_leb b a = false.
Proof.
  destruct a as [[y m] d], b as [[y' m'] d']. rewrite <- not_true_iff_false, date_leb_spec. cbn. lia.
Qed.
Lemma redate_leb a b : D a → D b → date_leb (f a) (f b) = date_leb a b.
Proof.
  intros Ha Hb. destruct (date_leb a b) eqn:E.
  - destruct (date_leb b a) eqn:E2.
    + rewrite (date_leb_antisym a b E E2). apply date_leb_refl.
    + apply earlier_leb in E2. apply Ho, earlier_leb in E2; [|done..].
      destruct (date_leb_total (f a) (f b)) as [|H]; [done|]. congruence.
  - apply earlier_leb in E. apply Ho, earlier_leb in E; done.
Qed.
Lemma redate_eq a b : D a → D b → f a = f b ↔ a = b.
Proof.
  intros Ha Hb. split; [|by intros ->]. intros He. apply date_leb_antisym; rewrite <- redate_leb by done; rewrite He; apply date_leb_refl.
Qed.

(** Journals. *)
Definition redate_jp (x : jpost) : jpost := JP (jp_trn x) (f (jp_date x)) (jp_post x).
Definition redate_j (j : journal) : journal := Journal (redate_trn f <$> j_trns j) (redate_jp <$> j_posts j).
Definition jdays_in (j : journal) : Prop :=
  (∀ x, x ∈ j_posts j → D (jp_date x)) ∧ ∀ h, h ∈ j_trns j → D (t_date (ti_raw h)).

Lemma redate_fp_hits j p : fp_hits (redate_j j) p = fp_hits j p.
Proof. unfold fp_hits. cbn [redate_j j_posts]. rewrite positions_fmap. by apply positions_ext. Qed.
Lemma redate_soft_hits j d p : jdays_in j → D d → soft_hits (redate_j j) (f d) p = soft_hits j d p.
Proof.
  intros [Hj _] Hd. unfold soft_hits. cbn [redate_j j_posts]. rewrite positions_fmap. apply positions_ext. intros x Hx. cbn.
  f_equal. apply bool_decide_ext, redate_eq; auto.
Qed.
Lemma redate_lookup j d p : jdays_in j → D d → lookup_posting (redate_j j) (f d) p = lookup_posting j d p.
Proof. intros Hj Hd. unfold lookup_posting. by rewrite redate_fp_hits, redate_soft_hits. Qed.
Lemma redate_verdicts j tp : jdays_in j → D (tp_date tp) → verdicts (redate_j j) (redate f tp) = verdicts j tp.
Proof.
  intros Hj Hd. unfold verdicts. change (tp_date (redate f tp)) with (f (tp_date tp)). cbn [redate tp_posts].
  apply Forall_fmap_ext_1, Forall_forall. intros p Hp. by apply redate_lookup.
Qed.
Lemma redate_left_out j tp : jdays_in j → D (tp_date tp) → left_out (redate_j j) (redate f tp) = left_out j tp.
Proof. intros Hj Hd. unfold left_out. by rewrite redate_verdicts. Qed.
Lemma redate_dests j tp : jdays_in j → D (tp_date tp) → dests (redate_j j) (redate f tp) = dests j tp.
Proof. intros Hj Hd. unfold dests. by rewrite redate_verdicts. Qed.
Lemma redate_apply_posting t d ps pv : redate_jp <$> apply_posting t d ps pv = apply_posting t (f d) (redate_jp <$> ps) pv.
Proof.
  destruct pv as [p v]. unfold apply_posting. cbn. destruct v as [i| | |]; [|by rewrite fmap_app|done|done].
  apply list_eq. intros k. rewrite !list_lookup_fmap. destruct (decide (k = i)) as [->|Hne].
  - rewrite !list_lookup_alter, list_lookup_fmap. by destruct (ps !! i) as [x|].
  - rewrite !list_lookup_alter_ne, list_lookup_fmap by done. done.
Qed.
Lemma redate_apply t d pvs : ∀ ps, redate_jp <$> foldl (apply_posting t d) ps pvs =
  foldl (apply_posting t (f d)) (redate_jp <$> ps) pvs.
Proof. induction pvs as [|pv pvs IH]; intros ps; [done|]. cbn. rewrite IH. by rewrite redate_apply_posting. Qed.
Lemma redate_apply_trn j0 j tp : jdays_in j0 → D (tp_date tp) → apply_trn (redate_j j0) (redate_j j) (redate f tp) = redate_j (apply_trn j0 j tp).
Proof.
  intros Hj Hd. unfold apply_trn. rewrite redate_left_out by done. destruct (left_out j0 tp); [done|].
  rewrite redate_verdicts, redate_dests by done. change (tp_date (redate f tp)) with (f (tp_date tp)).
  change (tp_posts (redate f tp)) with (tp_posts tp).
  assert (dests j0 tp ≫= (λ i, option_list (jp_trn <$> j_posts (redate_j j0) !! i)) = dests j0 tp ≫= (λ i, option_list (jp_trn <$> j_posts j0 !! i))) as ->.
  { induction (dests j0 tp) as [|i l IH]; [done|]. cbn [mbind list_bind redate_j j_posts] in *. rewrite IH. rewrite list_lookup_fmap. by destruct (j_posts j0 !! i). }
  destruct (dests j0 tp ≫= _) as [|t l]; unfold redate_j; cbn; rewrite redate_apply, ?fmap_app, ?fmap_length; reflexivity.
Qed.
Lemma redate_spec_merge j0 tps : jdays_in j0 → only_days D tps → ∀ j,
  foldl (apply_trn (redate_j j0)) (redate_j j) (redate f <$> tps) = redate_j (foldl (apply_trn j0) j tps).
Proof.
  intros Hj. induction tps as [|tp tps IH]; intros Ht j; [done|]. cbn. rewrite redate_apply_trn; [|done|apply Ht; left].
  apply IH. intros tp' Htp. apply Ht. by right.
Qed.

(** Dates stay among [D]. *)
Lemma apply_days_in t d pvs : D d → ∀ ps, (∀ x, x ∈ ps → D (jp_date x)) → ∀ x, x ∈ foldl (apply_posting t d) ps pvs → D (jp_date x).
Proof.
  intros Hd. induction pvs as [|[p v] pvs IH]; intros ps Hps; [done|]. cbn. apply IH.
  intros x. unfold apply_posting. cbn. destruct v as [i| | |]; [|rewrite elem_of_app, elem_of_list_singleton; intros [H| ->]; [by apply Hps|done]|by apply Hps|by apply Hps].
  intros (k & Hx)%elem_of_list_lookup. destruct (decide (k = i)) as [->|Hne].
  - rewrite list_lookup_alter in Hx. destruct (ps !! i) as [y|] eqn:E; [|done]. injection Hx as <-. cbn.
    apply Hps. by eapply elem_of_list_lookup_2.
  - rewrite list_lookup_alter_ne in Hx by done. apply Hps. by eapply elem_of_list_lookup_2.
Qed.
Lemma spec_days_in j0 tps : only_days D tps → ∀ j, jdays_in j → jdays_in (foldl (apply_trn j0) j tps).
Proof.
  induction tps as [|tp tps IH]; intros Ht j Hj; [done|]. cbn. apply IH; [intros tp' H; apply Ht; by right|].
  assert (D (tp_date tp)) as Hd by (apply Ht; left). destruct Hj as [Hj Hh].
  unfold apply_trn. destruct (left_out j0 tp); [done|].
  pose proof (λ t, apply_days_in t (tp_date tp) (zip (tp_posts tp) (verdicts j0 tp)) Hd (j_posts j) Hj) as H.
  destruct (dests j0 tp ≫= _) as [|t l]; split; cbn; try apply H; try done.
  intros h. rewrite elem_of_app, elem_of_list_singleton. intros [?| ->]; [by apply Hh|done].
Qed.

(** Which sets are accepted. *)
Lemma redate_all_posts tps : all_posts (redate f <$> tps) = all_posts tps.
Proof. unfold all_posts. induction tps as [|tp tps IH]; [done|]. cbn. by rewrite IH. Qed.
Lemma redate_all_dests j tps : jdays_in j → only_days D tps → all_dests (redate_j j) (redate f <$> tps) = all_dests j tps.
Proof.
  intros Hj. unfold all_dests. induction tps as [|tp tps IH]; intros Ht; [done|]. cbn [fmap list_fmap mbind list_bind] in *.
  rewrite redate_left_out, redate_dests by (try done; apply Ht; left). f_equal. apply IH. intros tp' H. apply Ht. by right.
Qed.
Lemma redate_valid j tps : jdays_in j → only_days D tps → valid_set (redate_j j) (redate f <$> tps) ↔ valid_set j tps.
Proof.
  intros Hj Ht. split; intros [H1 H2 H3 H4 H5]; rewrite ?redate_all_posts in *.
  - constructor; [done|done|..].
    + intros tp p Htp Hp. rewrite <- redate_fp_hits. apply (H3 (redate f tp)); [by apply elem_of_list_fmap_1|done].
    + intros tp i k x y Htp Hl Hi Hi' Hx Hy. pose proof (Ht tp Htp).
      apply (H4 (redate f tp) i k (redate_jp x) (redate_jp y)); [by apply elem_of_list_fmap_1|by rewrite redate_left_out|by rewrite redate_dests|by rewrite redate_dests|..];
        cbn; rewrite list_lookup_fmap; [by rewrite Hx|by rewrite Hy].
    + by rewrite redate_all_dests in H5.
  - constructor; rewrite ?redate_all_posts; [done|done|..].
    + intros tp' p (tp & -> & Htp)%elem_of_list_fmap Hp. rewrite redate_fp_hits. by eapply H3.
    + intros tp' i k x' y' (tp & -> & Htp)%elem_of_list_fmap. pose proof (Ht tp Htp). rewrite redate_left_out, redate_dests by done.
      cbn. rewrite !list_lookup_fmap, !fmap_Some. intros Hl Hi Hi' (x & Hx & ->) (y & Hy & ->). exact (H4 tp i k x y Htp Hl Hi Hi' Hx Hy).
    + by rewrite redate_all_dests.
Qed.

(** What is handed back. *)
Lemma redate_returned j j' tp u u' : returned_as j tp u → returned_as j' (redate f tp) u' →
  (∀ p, p ∈ tp_posts tp → lookup_posting j' (f (tp_date tp)) p = lookup_posting j (tp_date tp) p) →
  equal_but_candidates (redate f u) u'.
Proof.
  intros [H1 H2] [H3 H4] Hl. split; [rewrite H3; cbn; by rewrite H1|]. cbn [redate tp_posts] in *. change (tp_date (redate f tp)) with (f (tp_date tp)) in H4.
  clear H1 H3. revert H2 H4 Hl.
  generalize (tp_posts tp) (tp_posts u) (tp_posts u'). intros ps us us' H2. revert us'.
  induction H2 as [|p q ps us Hpq H2 IH]; intros us' H4 Hl; inversion H4 as [|? q' ? us'' Hpq' H4']; subst; constructor.
  - rewrite Hl in Hpq' by left. destruct (lookup_posting j (tp_date tp) p) as [i| |l|].
    1,2,4: subst q q'; by split_and!.
    destruct Hpq as (A1 & A2 & A3 & fs & _ & A4), Hpq' as (B1 & B2 & B3 & fs' & _ & B4). split_and!; [by rewrite B1, A1|by rewrite B2, A2|by rewrite B3, A3|].
    intros t Ht. unfold has_tag. rewrite B4, A4. rewrite !elem_of_union, !elem_of_list_to_set. split.
    + intros [H|(g & -> & _)%elem_of_list_fmap]; [by left|]. destruct Ht. by exists g.
    + intros [H|(g & -> & _)%elem_of_list_fmap]; [by left|]. destruct Ht. by exists g.
  - apply IH; [done|]. intros p' Hp'. apply Hl. by right.
Qed.
Lemma redate_journal_trns j : journal_trns (redate_j j) = redate f <$> journal_trns j.
Proof.
  unfold journal_trns. cbn [redate_j j_trns j_posts]. rewrite fmap_imap, imap_fmap. apply imap_ext. intros t h _. cbn. unfold redate. cbn. f_equal.
  induction (j_posts j) as [|x l IH]; [done|]. rewrite fmap_cons, !filter_cons. change (jp_trn (redate_jp x)) with (jp_trn x).
  destruct (decide (jp_trn x = t)); rewrite ?fmap_cons, IH; reflexivity.
Qed.
Lemma redate_insert tp l : D (tp_date tp) → only_days D l →
  sort_insert (by_key tp_date) (redate f tp) (redate f <$> l) = redate f <$> sort_insert (by_key tp_date) tp l.
Proof.
  intros Hd. induction l as [|tp' l IH]; intros Hl; [done|]. rewrite fmap_cons. cbn [sort_insert].
  assert (by_key tp_date (redate f tp) (redate f tp') = by_key tp_date tp tp') as ->.
  { unfold by_key. change (tp_date (redate f tp)) with (f (tp_date tp)). change (tp_date (redate f tp')) with (f (tp_date tp')).
    apply redate_leb; [done|]. apply Hl. left. }
  destruct (by_key tp_date tp tp'); [done|]. rewrite fmap_cons. f_equal. apply IH. intros x Hx. apply Hl. by right.
Qed.
Lemma redate_sort l : only_days D l → stable_sort (by_key tp_date) (redate f <$> l) = redate f <$> stable_sort (by_key tp_date) l.
Proof.
  induction l as [|tp l IH]; intros Hl; [done|]. rewrite fmap_cons. cbn [stable_sort]. rewrite IH by (intros x Hx; apply Hl; by right).
  apply redate_insert; [apply Hl; left|]. intros x Hx. apply Hl. right. by rewrite (stable_sort_perm (by_key tp_date) l) in Hx.
Qed.
Lemma journal_days j : jdays_in j → only_days D (journal_trns j).
Proof.
  intros [_ H] tp (k & Hk)%elem_of_list_lookup. unfold journal_trns in Hk. rewrite list_lookup_imap, fmap_Some in Hk.
  destruct Hk as (h & Hh & ->). cbn. apply H. by eapply elem_of_list_lookup_2.
Qed.

(** The two journals side by side. *)
Lemma redate_step m m' j ho ho' tps : hash_order_ok ho → hash_order_ok ho' → only_days D tps →
  represents m j → journal_wf j → represents m' (redate_j j) → journal_wf (redate_j j) → jdays_in j →
  (∃ j1, represents (merge ho m tps).1 j1 ∧ journal_wf j1 ∧ represents (merge ho' m' (redate f <$> tps)).1 (redate_j j1) ∧
     journal_wf (redate_j j1) ∧ jdays_in j1) ∧
  ((∃ un un', (merge ho m tps).2 = Ok un ∧ (merge ho' m' (redate f <$> tps)).2 = Ok un' ∧
     Forall2 (λ u u', equal_but_candidates (redate f u) u') un un') ∨
   (∃ e e', (merge ho m tps).2 = Err e ∧ (merge ho' m' (redate f <$> tps)).2 = Err e')).
Proof.
  intros Hho Hho' Ht Hj Hwf Hj' Hwf' Hin. pose proof (redate_valid j tps Hin Ht) as Hv.
  destruct (merge ho m tps) as [m1 r1] eqn:E1. destruct (merge ho' m' (redate f <$> tps)) as [m2 r2] eqn:E2. cbn [fst snd].
  destruct (merge_cases ho m j tps m1 _ Hho Hj Hwf E1) as [(V1 & W1 & R1 & un & -> & U1)|(V1 & -> & e & ->)];
  destruct (merge_cases ho' m' _ _ m2 _ Hho' Hj' Hwf' E2) as [(V2 & W2 & R2 & un' & -> & U2)|(V2 & -> & e' & ->)]; [|tauto|tauto|].
  - assert (Hs : spec_merge (redate_j j) (redate f <$> tps) = redate_j (spec_merge j tps)) by (by apply redate_spec_merge).
    rewrite Hs in R2, W2. split.
    + exists (spec_merge j tps). split_and!; try done; by apply spec_days_in.
    + left. exists un, un'. split_and!; [done..|].
      assert (Hf : filter (λ tp, left_out (redate_j j) tp = true) (redate f <$> tps) = redate f <$> filter (λ tp, left_out j tp = true) tps).
      { clear -Hin Ht Ho. induction tps as [|tp tps IH]; [done|]. rewrite fmap_cons, !filter_cons.
        rewrite redate_left_out by (try done; apply Ht; left). destruct (decide _); rewrite ?fmap_cons, IH; try done; intros tp' H; apply Ht; by right. }
      rewrite Hf in U2. apply Forall2_fmap_l in U2.
      assert (Hsub : only_days D (filter (λ tp, left_out j tp = true) tps)).
      { intros tp [_ H]%elem_of_list_filter. by apply Ht. }
      revert U1 U2 Hsub. generalize (filter (λ tp, left_out j tp = true) tps). clear -Hin Ho. intros l U1. revert un'.
      induction U1 as [|tp u l un H U IH]; intros un' U2 Hsub; inversion U2 as [|? u' ? un'' H' U2']; subst; constructor.
      * eapply redate_returned; [exact H|exact H'|]. intros p Hp. apply redate_lookup; [done|]. apply Hsub. left.
      * apply IH; [done|]. intros tp' Htp. apply Hsub. by right.
  - split; [by exists j|]. right. by exists e, e'.
Qed.
Lemma redate_state m m' : made_redated D f m m' →
  ∃ j, represents m j ∧ journal_wf j ∧ represents m' (redate_j j) ∧ journal_wf (redate_j j) ∧ jdays_in j.
Proof.
  induction 1 as [|m m' ho ho' tps H (j & H1 & H2 & H3 & H4 & H5) Hho Hho' Hd].
  - exists journal_new. destruct (reachable_represents _ reach_new) as (j & Hj & Hwf).
    pose proof (represents_journal _ _ _ Hj rep_new) as ->. split_and!; try done; [exact rep_new..|]. split; intros x Hx; by apply elem_of_nil in Hx.
  - by destruct (redate_step m m' j ho ho' tps) as [? _].
Qed.
Lemma c145 m m' ho ho' tps : hash_order_ok ho → hash_order_ok ho' → made_redated D f m m' → only_days D tps →
  ((∃ un un', (merge ho m tps).2 = Ok un ∧ (merge ho' m' (redate f <$> tps)).2 = Ok un' ∧
     Forall2 (λ u u', equal_but_candidates (redate f u) u') un un') ∨
   (∃ e e', (merge ho m tps).2 = Err e ∧ (merge ho' m' (redate f <$> tps)).2 = Err e')) ∧
  build ho' m' = rmap (λ out : list transaction_postings, redate f <$> out) (build ho m).
Proof.
  intros Hho Hho' Hm Hd. destruct (redate_state _ _ Hm) as (j & H1 & H2 & H3 & H4 & H5). split.
  - by destruct (redate_step m m' j ho ho' tps) as [_ ?].
  - rewrite (build_refines ho Hho m j H1), (build_refines ho' Hho' m' _ H3). cbn [rmap]. rewrite redate_journal_trns.
    apply (f_equal Ok), redate_sort. by apply journal_days.
Qed.
End redate.

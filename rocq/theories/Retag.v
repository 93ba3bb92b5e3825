(** Renaming flag tags (C144). *)
From Verif Require Import MergeClaims.
From Verif Require Import Base Types SpecBase BaseProofs CommentModel MergeModel CmdModel MergeSpec CmdClaims RenameClaims RetagClaims
  MergeProofs MergePending MergeApply MergeBuild MergeClosed MergeLemmas MergePlaces MergeLaws2.
From Coq Require Import Lia.
Local Open Scope nat_scope.

Section retag.
Context (F : str → Prop) (f : str → str) (Hk : keeps_kinds f) (Ha : stay_apart F f).

Definition fps_in (p : posting_internal) : Prop := ∀ t, has_fp p t → F t.

Lemma retag_has p t : has_tag (retag_post f p) t ↔ ∃ s, has_tag p s ∧ t = f s.
Proof. unfold has_tag. cbn. rewrite elem_of_map. naive_solver. Qed.
Lemma retag_has_fp p t : has_fp (retag_post f p) t ↔ ∃ s, has_fp p s ∧ t = f s.
Proof.
  unfold has_fp. rewrite retag_has. split.
  - intros (H & s & H1 & ->). exists s. by rewrite (kk_fp f Hk) in H.
  - intros (s & [H H1] & ->). split; [by apply (kk_fp f Hk)|]. by exists s.
Qed.
Lemma retag_share p q : fps_in p → fps_in q → share_fp (retag_post f p) (retag_post f q) ↔ share_fp p q.
Proof.
  intros Hp Hq. unfold share_fp. split.
  - intros (t & (s & Hs & ->)%retag_has_fp & (s' & Hs' & He)%retag_has_fp).
    assert (s = s') as <- by (apply Ha; auto). by exists s.
  - intros (s & H1 & H2). exists (f s). rewrite !retag_has_fp. split; by exists s.
Qed.
Lemma retag_unknown p : UNKNOWN_ACCOUNT ∈ tags (pi_comment (retag_post f p)) ↔ UNKNOWN_ACCOUNT ∈ tags (pi_comment p).
Proof.
  change (has_tag (retag_post f p) UNKNOWN_ACCOUNT ↔ has_tag p UNKNOWN_ACCOUNT). rewrite retag_has. split.
  - intros (s & H & He). symmetry in He. apply (proj1 (kk_unknown f Hk _)) in He. by subst s.
  - intros H. exists UNKNOWN_ACCOUNT. split; [done|]. symmetry. by apply (proj2 (kk_unknown f Hk _)).
Qed.
Lemma retag_mergeable p : mergeable (retag_post f p) ↔ mergeable p.
Proof.
  unfold mergeable. split.
  - intros [(t & (s & Hs & _)%retag_has_fp) H]. split; [by exists s|]. intros t' Ht Hc.
    apply (H (f t')); [apply retag_has; by exists t'|by apply (proj2 (kk_candidate f Hk _))].
  - intros [(s & Hs) H]. split; [exists (f s); apply retag_has_fp; by exists s|].
    intros t (s' & Hs' & ->)%retag_has Hc. apply (proj1 (kk_candidate f Hk _)) in Hc. by apply (H s').
Qed.
Lemma retag_matches p q : matches (retag_post f p) (retag_post f q) = matches p q.
Proof.
  unfold matches. rewrite !(bool_decide_ext _ _ (retag_unknown _)). reflexivity.
Qed.
Lemma retag_merge x p : merge_posting (retag_post f x) (retag_post f p) = retag_post f (merge_posting x p).
Proof.
  apply posting_internal_eq.
  - cbn. rewrite !merge_posting_account, !(bool_decide_ext _ _ (retag_unknown _)). reflexivity.
  - cbn. unfold merge_posting. rewrite !(bool_decide_ext _ _ (retag_unknown _)). destruct x as [[? ? ? [] [[]|] ?] ?], p as [[? ? ? [] [[]|] ?] ?]; cbn; by destruct (_ && _).
  - cbn. unfold merge_posting. rewrite !(bool_decide_ext _ _ (retag_unknown _)). destruct x as [[? ? ? [] [[]|] ?] ?], p as [[? ? ? [] [[]|] ?] ?]; cbn; by destruct (_ && _).
  - cbn. by rewrite !merge_posting_balance.
  - cbn. by rewrite !merge_posting_status.
  - cbn. unfold merge_posting. rewrite !(bool_decide_ext _ _ (retag_unknown _)). destruct x as [[? ? ? [] [[]|] ?] ?], p as [[? ? ? [] [[]|] ?] ?]; cbn; by destruct (_ && _).
  - apply comment_eq.
    + cbn. by rewrite !merge_posting_lines.
    + intros t. rewrite merge_posting_tags. 
      change (tags (pi_comment (retag_post f (merge_posting x p)))) with (set_map (D := gset str) f (tags (pi_comment (merge_posting x p)))).
      rewrite elem_of_map. setoid_rewrite merge_posting_tags. destruct (decide (t = UNKNOWN_ACCOUNT)) as [->|Ht].
      * rewrite !retag_unknown. split.
        -- intros H. exists UNKNOWN_ACCOUNT. split; [symmetry; by apply (proj2 (kk_unknown f Hk _))|]. by rewrite decide_True.
        -- intros (s & He & H). symmetry in He. apply (proj1 (kk_unknown f Hk _)) in He. subst s. by rewrite decide_True in H.
      * change (has_tag (retag_post f x) t ∨ has_tag (retag_post f p) t ↔ ∃ s, t = f s ∧
          (if decide (s = UNKNOWN_ACCOUNT) then s ∈ tags (pi_comment x) ∧ s ∈ tags (pi_comment p) else s ∈ tags (pi_comment x) ∨ s ∈ tags (pi_comment p))).
        rewrite !retag_has. split.
        -- intros [(s & H & ->)|(s & H & ->)]; exists s; (split; [done|]); (rewrite decide_False; [by (left + right)|]);
             intros ->; apply Ht; by apply (proj2 (kk_unknown f Hk _)).
        -- intros (s & -> & H). rewrite decide_False in H.
           ++ destruct H; [left|right]; by exists s.
           ++ intros ->. apply Ht. by apply (proj2 (kk_unknown f Hk _)).
    + cbn. by rewrite !merge_posting_values.
Qed.
Lemma merge_fps_in x p : fps_in x → fps_in p → fps_in (merge_posting x p).
Proof. intros Hx Hp t. rewrite merge_posting_fp. naive_solver. Qed.

(** Journals. *)
Definition retag_jp (x : jpost) : jpost := JP (jp_trn x) (jp_date x) (retag_post f (jp_post x)).
Definition retag_j (j : journal) : journal := Journal (j_trns j) (retag_jp <$> j_posts j).
Definition jfps_in (j : journal) : Prop := ∀ x, x ∈ j_posts j → fps_in (jp_post x).

Lemma retag_sharab p q : fps_in p → fps_in q → share_fpb (retag_post f p) (retag_post f q) = share_fpb p q.
Proof. intros Hp Hq. apply eq_true_iff_eq. rewrite !share_fpb_spec. by apply retag_share. Qed.
Lemma retag_fp_hits j p : jfps_in j → fps_in p → fp_hits (retag_j j) (retag_post f p) = fp_hits j p.
Proof.
  intros Hj Hp. unfold fp_hits. cbn [retag_j j_posts]. rewrite positions_fmap. apply positions_ext. intros x Hx. cbn. apply retag_sharab; auto.
Qed.
Lemma retag_soft_hits j d p : soft_hits (retag_j j) d (retag_post f p) = soft_hits j d p.
Proof.
  unfold soft_hits. cbn [retag_j j_posts]. rewrite positions_fmap. apply positions_ext. intros x Hx. cbn. by rewrite retag_matches.
Qed.
Lemma retag_lookup j d p : jfps_in j → fps_in p → lookup_posting (retag_j j) d (retag_post f p) = lookup_posting j d p.
Proof. intros Hj Hp. unfold lookup_posting. by rewrite retag_fp_hits, retag_soft_hits by done. Qed.
Definition tfps_in (tp : transaction_postings) : Prop := ∀ p, p ∈ tp_posts tp → fps_in p.
Lemma retag_verdicts j tp : jfps_in j → tfps_in tp → verdicts (retag_j j) (retag f tp) = verdicts j tp.
Proof.
  intros Hj Ht. unfold verdicts. change (tp_date (retag f tp)) with (tp_date tp). cbn [retag tp_posts]. rewrite <- list_fmap_compose.
  apply Forall_fmap_ext_1, Forall_forall. intros p Hp. cbn. apply retag_lookup; auto.
Qed.
Lemma retag_left_out j tp : jfps_in j → tfps_in tp → left_out (retag_j j) (retag f tp) = left_out j tp.
Proof. intros Hj Ht. unfold left_out. rewrite retag_verdicts by done. cbn [retag tp_posts]. by destruct (tp_posts tp). Qed.
Lemma retag_dests j tp : jfps_in j → tfps_in tp → dests (retag_j j) (retag f tp) = dests j tp.
Proof. intros Hj Ht. unfold dests. by rewrite retag_verdicts. Qed.
Lemma retag_apply_posting t d ps p v : retag_jp <$> apply_posting t d ps (p, v) = apply_posting t d (retag_jp <$> ps) (retag_post f p, v).
Proof.
  unfold apply_posting. cbn. destruct v as [i| | |]; [|by rewrite fmap_app|done|done].
  apply list_eq. intros k. rewrite !list_lookup_fmap. destruct (decide (k = i)) as [->|Hne].
  - rewrite !list_lookup_alter, list_lookup_fmap. destruct (ps !! i) as [x|]; [|done]. cbn. unfold retag_jp at 1. cbn. by rewrite <- retag_merge.
  - rewrite !list_lookup_alter_ne, list_lookup_fmap by done. done.
Qed.
Lemma retag_apply t d pvs : ∀ ps, retag_jp <$> foldl (apply_posting t d) ps pvs =
  foldl (apply_posting t d) (retag_jp <$> ps) ((λ pv, (retag_post f pv.1, pv.2)) <$> pvs).
Proof. induction pvs as [|[p v] pvs IH]; intros ps; [done|]. cbn. rewrite IH. by rewrite retag_apply_posting. Qed.
Lemma retag_zip (l : list posting_internal) (vs : list verdict) :
  zip (retag_post f <$> l) vs = (λ pv, (retag_post f pv.1, pv.2)) <$> zip l vs.
Proof. revert vs. induction l as [|p l IH]; intros [|v vs]; [done..|]. cbn. by rewrite IH. Qed.
Lemma retag_apply_trn j0 j tp : jfps_in j0 → tfps_in tp → apply_trn (retag_j j0) (retag_j j) (retag f tp) = retag_j (apply_trn j0 j tp).
Proof.
  intros Hj Ht. unfold apply_trn. rewrite retag_left_out by done. destruct (left_out j0 tp); [done|].
  rewrite retag_verdicts, retag_dests by done. change (tp_date (retag f tp)) with (tp_date tp).
  change (tp_posts (retag f tp)) with (retag_post f <$> tp_posts tp). rewrite retag_zip.
  assert (dests j0 tp ≫= (λ i, option_list (jp_trn <$> j_posts (retag_j j0) !! i)) = dests j0 tp ≫= (λ i, option_list (jp_trn <$> j_posts j0 !! i))) as ->.
  { induction (dests j0 tp) as [|i l IH]; [done|]. cbn [mbind list_bind retag_j j_posts] in *. rewrite IH. rewrite list_lookup_fmap. by destruct (j_posts j0 !! i). }
  destruct (dests j0 tp ≫= _) as [|t l]; unfold retag_j; cbn; by rewrite retag_apply.
Qed.
Lemma retag_spec_merge j0 tps : jfps_in j0 → (∀ tp, tp ∈ tps → tfps_in tp) → ∀ j,
  foldl (apply_trn (retag_j j0)) (retag_j j) (retag f <$> tps) = retag_j (foldl (apply_trn j0) j tps).
Proof.
  intros Hj. induction tps as [|tp tps IH]; intros Ht j; [done|]. cbn. rewrite retag_apply_trn; [|done|apply Ht; left].
  apply IH. intros tp' Htp. apply Ht. by right.
Qed.

(** Fingerprints stay among [F]. *)
Lemma apply_fps_in t d pvs : ∀ ps, (∀ x, x ∈ ps → fps_in (jp_post x)) → (∀ pv, pv ∈ pvs → fps_in pv.1) →
  ∀ x, x ∈ foldl (apply_posting t d) ps pvs → fps_in (jp_post x).
Proof.
  induction pvs as [|[p v] pvs IH]; intros ps Hps Hp; [done|]. cbn. apply IH; [|intros pv H; apply Hp; by right].
  assert (fps_in p) as Hpp by (apply (Hp (p, v)); left).
  intros x. unfold apply_posting. cbn. destruct v as [i| | |]; [|rewrite elem_of_app, elem_of_list_singleton; intros [H| ->]; [by apply Hps|done]|by apply Hps|by apply Hps].
  intros (k & Hx)%elem_of_list_lookup. destruct (decide (k = i)) as [->|Hne].
  - rewrite list_lookup_alter in Hx. destruct (ps !! i) as [y|] eqn:E; [|done]. injection Hx as <-. cbn. apply merge_fps_in; [|done].
    apply Hps. by eapply elem_of_list_lookup_2.
  - rewrite list_lookup_alter_ne in Hx by done. apply Hps. by eapply elem_of_list_lookup_2.
Qed.
Lemma spec_fps_in j0 tps : (∀ tp, tp ∈ tps → tfps_in tp) → ∀ j, jfps_in j → jfps_in (foldl (apply_trn j0) j tps).
Proof.
  induction tps as [|tp tps IH]; intros Ht j Hj; [done|]. cbn. apply IH; [intros tp' H; apply Ht; by right|].
  unfold apply_trn. destruct (left_out j0 tp); [done|].
  assert (∀ t x, x ∈ foldl (apply_posting t (tp_date tp)) (j_posts j) (zip (tp_posts tp) (verdicts j0 tp)) → fps_in (jp_post x)) as H.
  { intros t. apply apply_fps_in; [done|]. intros [p v] H. apply elem_of_zip_l in H. apply (Ht tp); [left|done]. }
  destruct (dests j0 tp ≫= _) as [|t l]; unfold jfps_in; cbn; apply H.
Qed.

(** Which sets are accepted. *)
Lemma retag_all_posts tps : all_posts (retag f <$> tps) = retag_post f <$> all_posts tps.
Proof. unfold all_posts. induction tps as [|tp tps IH]; [done|]. cbn. by rewrite IH, fmap_app. Qed.
Lemma retag_all_dests j tps : jfps_in j → (∀ tp, tp ∈ tps → tfps_in tp) → all_dests (retag_j j) (retag f <$> tps) = all_dests j tps.
Proof.
  intros Hj. unfold all_dests. induction tps as [|tp tps IH]; intros Ht; [done|]. cbn [fmap list_fmap mbind list_bind] in *.
  rewrite retag_left_out, retag_dests by (try done; apply Ht; left). f_equal. apply IH. intros tp' H. apply Ht. by right.
Qed.
Lemma retag_distinct ps : (∀ p, p ∈ ps → fps_in p) → fps_distinct (retag_post f <$> ps) ↔ fps_distinct ps.
Proof.
  intros Hp. split; intros H i k.
  - intros p q H1 H2 H3. apply (H i k (retag_post f p) (retag_post f q)); [by rewrite list_lookup_fmap, H1|by rewrite list_lookup_fmap, H2|].
    apply retag_share; [..|done]; apply Hp; by eapply elem_of_list_lookup_2.
  - intros p' q'. rewrite !list_lookup_fmap, !fmap_Some. intros (p & H1 & ->) (q & H2 & ->) H3.
    apply (proj1 (retag_share p q ltac:(apply Hp; by eapply elem_of_list_lookup_2) ltac:(apply Hp; by eapply elem_of_list_lookup_2))) in H3. by eapply H.
Qed.
Lemma retag_valid j tps : jfps_in j → (∀ tp, tp ∈ tps → tfps_in tp) → valid_set (retag_j j) (retag f <$> tps) ↔ valid_set j tps.
Proof.
  intros Hj Ht.
  assert (Hall : ∀ p, p ∈ all_posts tps → fps_in p).
  { intros p (tp & Hp & Htp)%elem_of_list_bind. by apply (Ht tp). }
  split; intros [H1 H2 H3 H4 H5].
  - constructor.
    + intros p Hp. apply (proj1 (retag_mergeable p)), H1. rewrite retag_all_posts. by apply elem_of_list_fmap_1.
    + rewrite retag_all_posts in H2. by apply (proj1 (retag_distinct _ Hall)) in H2.
    + intros tp p Htp Hp. pose proof (Ht tp Htp p Hp). rewrite <- retag_fp_hits by done.
      apply (H3 (retag f tp)); [by apply elem_of_list_fmap_1|]. cbn. by apply elem_of_list_fmap_1.
    + intros tp i k x y Htp Hl Hi Hi' Hx Hy. pose proof (Ht tp Htp).
      apply (H4 (retag f tp) i k (retag_jp x) (retag_jp y)); [by apply elem_of_list_fmap_1|by rewrite retag_left_out|by rewrite retag_dests|by rewrite retag_dests|..];
        cbn; rewrite list_lookup_fmap; [by rewrite Hx|by rewrite Hy].
    + by rewrite retag_all_dests in H5.
  - constructor.
    + intros p'. rewrite retag_all_posts. intros (p & -> & Hp)%elem_of_list_fmap. by apply (proj2 (retag_mergeable p)), H1.
    + rewrite retag_all_posts. by apply (proj2 (retag_distinct _ Hall)).
    + intros tp' p' (tp & -> & Htp)%elem_of_list_fmap (p & -> & Hp)%elem_of_list_fmap.
      pose proof (Ht tp Htp p Hp). rewrite retag_fp_hits by done. by eapply H3.
    + intros tp' i k x' y' (tp & -> & Htp)%elem_of_list_fmap. pose proof (Ht tp Htp). rewrite retag_left_out, retag_dests by done.
      cbn. rewrite !list_lookup_fmap, !fmap_Some. intros Hl Hi Hi' (x & Hx & ->) (y & Hy & ->). exact (H4 tp i k x y Htp Hl Hi Hi' Hx Hy).
    + by rewrite retag_all_dests.
Qed.

(** What is handed back. *)
Lemma retag_returned j j' tp u u' : returned_as j tp u → returned_as j' (retag f tp) u' →
  (∀ p, p ∈ tp_posts tp → lookup_posting j' (tp_date tp) (retag_post f p) = lookup_posting j (tp_date tp) p) →
  equal_but_candidates (retag f u) u'.
Proof.
  intros [H1 H2] [H3 H4] Hl. split; [rewrite H3; cbn; by rewrite H1|]. cbn [retag tp_posts] in *. change (tp_date (retag f tp)) with (tp_date tp) in H4.
  apply Forall2_fmap_l. apply Forall2_fmap_l in H4. clear H1 H3. revert H2 H4 Hl.
  generalize (tp_posts tp) (tp_posts u) (tp_posts u'). intros ps us us' H2. revert us'.
  induction H2 as [|p q ps us Hpq H2 IH]; intros us' H4 Hl; inversion H4 as [|? q' ? us'' Hpq' H4']; subst; constructor.
  - cbv beta delta [compose] in Hpq'. rewrite Hl in Hpq' by left. destruct (lookup_posting j (tp_date tp) p) as [i| |l|].
    1,2,4: subst q q'; by split_and!.
    destruct Hpq as (A1 & A2 & A3 & fs & _ & A4), Hpq' as (B1 & B2 & B3 & fs' & _ & B4). cbn. split_and!; [by rewrite B1, A1|by rewrite B2, A2|by rewrite B3, A3|].
    intros t Ht. rewrite retag_has. unfold has_tag. rewrite B4, A4. cbn. rewrite elem_of_union, elem_of_map. split.
    + intros [(s & -> & Hs)|(g & -> & _)%elem_of_list_to_set%elem_of_list_fmap].
      * exists s. split; [|done]. rewrite elem_of_union. by left.
      * destruct Ht. by exists g.
    + intros (s & [Hs|(g & -> & _)%elem_of_list_to_set%elem_of_list_fmap]%elem_of_union & ->).
      * left. by exists s.
      * destruct Ht. apply (proj2 (kk_candidate f Hk _)). by exists g.
  - apply IH; [done|]. intros p' Hp'. apply Hl. by right.
Qed.
Lemma retag_journal_trns j : journal_trns (retag_j j) = retag f <$> journal_trns j.
Proof.
  unfold journal_trns. cbn [retag_j j_trns j_posts]. rewrite fmap_imap. apply imap_ext. intros t h _. cbn. unfold retag. cbn. f_equal.
  induction (j_posts j) as [|x l IH]; [done|]. rewrite fmap_cons, !filter_cons. change (jp_trn (retag_jp x)) with (jp_trn x).
  destruct (decide (jp_trn x = t)); rewrite ?fmap_cons, IH; reflexivity.
Qed.
Lemma retag_insert tp l : sort_insert (by_key tp_date) (retag f tp) (retag f <$> l) = retag f <$> sort_insert (by_key tp_date) tp l.
Proof.
  induction l as [|tp' l IH]; [done|]. rewrite fmap_cons. cbn [sort_insert].
  change (by_key tp_date (retag f tp) (retag f tp')) with (by_key tp_date tp tp'). destruct (by_key tp_date tp tp'); rewrite ?fmap_cons, ?IH; reflexivity.
Qed.
Lemma retag_sort l : stable_sort (by_key tp_date) (retag f <$> l) = retag f <$> stable_sort (by_key tp_date) l.
Proof. induction l as [|tp l IH]; [done|]. rewrite fmap_cons. cbn [stable_sort]. rewrite IH. apply retag_insert. Qed.

(** The two journals side by side. *)
Lemma only_tfps tps : only_fps F tps → ∀ tp, tp ∈ tps → tfps_in tp.
Proof. intros H tp Htp p Hp t Ht. by eapply H. Qed.
Lemma retag_step m m' j ho ho' tps : hash_order_ok ho → hash_order_ok ho' → only_fps F tps →
  represents m j → journal_wf j → represents m' (retag_j j) → journal_wf (retag_j j) → jfps_in j →
  (∃ j1, represents (merge ho m tps).1 j1 ∧ journal_wf j1 ∧ represents (merge ho' m' (retag f <$> tps)).1 (retag_j j1) ∧
     journal_wf (retag_j j1) ∧ jfps_in j1) ∧
  ((∃ un un', (merge ho m tps).2 = Ok un ∧ (merge ho' m' (retag f <$> tps)).2 = Ok un' ∧
     Forall2 (λ u u', equal_but_candidates (retag f u) u') un un') ∨
   (∃ e e', (merge ho m tps).2 = Err e ∧ (merge ho' m' (retag f <$> tps)).2 = Err e')).
Proof.
  intros Hho Hho' Ho Hj Hwf Hj' Hwf' Hin. pose proof (only_tfps _ Ho) as Ht. pose proof (retag_valid j tps Hin Ht) as Hv.
  destruct (merge ho m tps) as [m1 r1] eqn:E1. destruct (merge ho' m' (retag f <$> tps)) as [m2 r2] eqn:E2. cbn [fst snd].
  destruct (merge_cases ho m j tps m1 _ Hho Hj Hwf E1) as [(V1 & W1 & R1 & un & -> & U1)|(V1 & -> & e & ->)];
  destruct (merge_cases ho' m' _ _ m2 _ Hho' Hj' Hwf' E2) as [(V2 & W2 & R2 & un' & -> & U2)|(V2 & -> & e' & ->)]; [|tauto|tauto|].
  - assert (Hs : spec_merge (retag_j j) (retag f <$> tps) = retag_j (spec_merge j tps)) by (by apply retag_spec_merge).
    rewrite Hs in R2, W2. split.
    + exists (spec_merge j tps). split_and!; try done. by apply spec_fps_in.
    + left. exists un, un'. split_and!; [done..|].
      assert (Hf : filter (λ tp, left_out (retag_j j) tp = true) (retag f <$> tps) = retag f <$> filter (λ tp, left_out j tp = true) tps).
      { clear -Hin Ht Hk Ha. induction tps as [|tp tps IH]; [done|]. rewrite fmap_cons, !filter_cons.
        rewrite retag_left_out by (try done; apply Ht; left). destruct (decide _); rewrite ?fmap_cons, IH; try done; intros tp' H; apply Ht; by right. }
      rewrite Hf in U2. apply Forall2_fmap_l in U2.
      assert (Hsub : ∀ tp, tp ∈ filter (λ tp, left_out j tp = true) tps → tfps_in tp).
      { intros tp [_ H]%elem_of_list_filter. by apply Ht. }
      revert U1 U2 Hsub. generalize (filter (λ tp, left_out j tp = true) tps). clear -Hin Hk Ha. intros l U1. revert un'.
      induction U1 as [|tp u l un H U IH]; intros un' U2 Hsub; inversion U2 as [|? u' ? un'' H' U2']; subst; constructor.
      * eapply retag_returned; [exact H|exact H'|]. intros p Hp. apply retag_lookup; [done|]. by apply (Hsub tp); [left|].
      * apply IH; [done|]. intros tp' Htp. apply Hsub. by right.
  - split; [by exists j|]. right. by exists e, e'.
Qed.
Lemma retag_state m m' : made_retagged F f m m' →
  ∃ j, represents m j ∧ journal_wf j ∧ represents m' (retag_j j) ∧ journal_wf (retag_j j) ∧ jfps_in j.
Proof.
  induction 1 as [|m m' ho ho' tps H (j & H1 & H2 & H3 & H4 & H5) Hho Hho' Ho].
  - exists journal_new. destruct (reachable_represents _ reach_new) as (j & Hj & Hwf).
    pose proof (represents_journal _ _ _ Hj rep_new) as ->. split_and!; try done; [exact rep_new..|]. intros x Hx. by apply elem_of_nil in Hx.
  - by destruct (retag_step m m' j ho ho' tps) as [? _].
Qed.
Lemma c144 m m' ho ho' tps : hash_order_ok ho → hash_order_ok ho' → made_retagged F f m m' → only_fps F tps →
  ((∃ un un', (merge ho m tps).2 = Ok un ∧ (merge ho' m' (retag f <$> tps)).2 = Ok un' ∧
     Forall2 (λ u u', equal_but_candidates (retag f u) u') un un') ∨
   (∃ e e', (merge ho m tps).2 = Err e ∧ (merge ho' m' (retag f <$> tps)).2 = Err e')) ∧
  build ho' m' = rmap (λ out : list transaction_postings, retag f <$> out) (build ho m).
Proof.
  intros Hho Hho' Hm Ho. destruct (retag_state _ _ Hm) as (j & H1 & H2 & H3 & H4 & H5). split.
  - by destruct (retag_step m m' j ho ho' tps) as [_ ?].
  - rewrite (build_refines ho Hho m j H1), (build_refines ho' Hho' m' _ H3). cbn [rmap]. rewrite retag_journal_trns. apply (f_equal Ok), retag_sort.
Qed.
End retag.

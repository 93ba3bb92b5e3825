(** Proofs of the claims about merging: order, refinement, independence. *)
From Verif Require Import Base Types CommentModel MergeModel SpecBase BaseProofs MergeSpec MergeClaims
  MergeProofs MergePending MergeApply MergeBuild MergeClosed MergeLemmas MergePlaces MergeLaws MergeLaws2 MergeLaws3.
From Coq Require Import Lia QArith.
Local Open Scope nat_scope.

Lemma class_le d (a b : transaction_postings) : tp_date a = d → tp_date b = d → by_key tp_date a b = true.
Proof. intros <- E. unfold by_key. rewrite E. apply date_leb_refl. Qed.
Lemma trns_of_journal j : tp_trn <$> journal_trns j = j_trns j.
Proof.
  unfold journal_trns. rewrite fmap_imap. apply list_eq. intros i. rewrite list_lookup_imap.
  by destruct (j_trns j !! i).
Qed.
Lemma headers_of_date d (l : list transaction_postings) :
  tp_trn <$> filter (λ tp, tp_date tp = d) l = filter (λ h, t_date (ti_raw h) = d) (tp_trn <$> l).
Proof. by rewrite (filter_fmap' (λ h, t_date (ti_raw h) = d) tp_trn l). Qed.

Section laws.
  Context (m : merger) (j : journal) (Hr : reachable m) (Hj : represents m j).
  Let Hwf : journal_wf j := reachable_wf m j Hr Hj.

  (** C08 *)
  Lemma built_sorted ho out : hash_order_ok ho → build ho m = Ok out →
    StronglySorted (λ a b, date_leb (tp_date a) (tp_date b) = true) out.
  Proof.
    intros Hho ->%(build_inv ho m j); [|done..].
    apply (stable_sort_sorted (by_key tp_date)); [apply by_key_total|apply by_key_trans].
  Qed.
  Lemma built_stable ho ho1 ho2 tps m' un out out' :
    hash_order_ok ho → hash_order_ok ho1 → hash_order_ok ho2 →
    merge ho m tps = (m', Ok un) → build ho1 m = Ok out → build ho2 m' = Ok out' →
    ∃ news : list transaction_postings, sublist news tps ∧ (∀ tp, tp ∈ news ↔ tp ∈ tps ∧ becomes_new j tp) ∧
      ∀ d, tp_trn <$> filter (λ tp, tp_date tp = d) out' =
           (tp_trn <$> filter (λ tp, tp_date tp = d) out) ++ (tp_trn <$> filter (λ tp, tp_date tp = d) news).
  Proof.
    intros Hho Hho1 Hho2 Hm ->%(build_inv ho1 m j) Hb'; [|done..].
    destruct (merge_inv m j Hr Hj ho tps m' un Hho Hm) as (Hv & Hwf' & Hj' & Hun).
    apply (build_inv ho2 m' (spec_merge j tps)) in Hb' as ->; [|done..].
    exists (filter (λ tp, is_true (fresh j tp)) tps). split_and!.
    - apply sublist_filter'.
    - intros tp. rewrite elem_of_list_filter.
      assert (tp ∈ tps → fresh j tp = true ↔ becomes_new j tp) as H.
      { intros Htp. rewrite becomes_new_fresh. unfold fresh. rewrite andb_true_iff, negb_true_iff, bool_decide_eq_true.
        split; [|naive_solver]. intros [El Ed]. split_and!; [done..|]. intros p Hp.
        destruct (todo_cases j tps Hwf Hv p (lookup_posting j (tp_date tp) p)) as [->|(k & E & _)]; [|done|].
        - apply elem_of_list_bind. exists tp. split; [by apply elem_of_todo|done].
        - assert (k ∈ dests j tp) as Hk.
          { unfold dests, verdicts. apply elem_of_list_omap. exists (VMerge k). split; [|done].
            apply elem_of_list_fmap. exists p. by rewrite E. }
          rewrite Ed in Hk. by apply elem_of_nil in Hk. }
      split; [intros [Hf Ht]; split; [done|by apply H]|intros [Ht Hn]; split; [by apply H|done]].
    - intros d. rewrite !stable_sort_filter by apply class_le. rewrite !headers_of_date, !trns_of_journal.
      rewrite <- filter_app. f_equal. rewrite spec_merge_closed. done.
  Qed.

  (** C10, C23 *)
  Lemma built_extends ho ho1 ho2 tps m' un out out' :
    hash_order_ok ho → hash_order_ok ho1 → hash_order_ok ho2 →
    merge ho m tps = (m', Ok un) → build ho1 m = Ok out → build ho2 m' = Ok out' →
    ∃ out0, sublist out0 out' ∧
      Forall2 (λ a b, tp_trn b = tp_trn a ∧ ∃ ps extra, tp_posts b = ps ++ extra ∧
        Forall2 post_refines (tp_posts a) ps ∧ ∀ p, p ∈ extra → newly_added j tps p) out out0.
  Proof.
    intros Hho Hho1 Hho2 Hm ->%(build_inv ho1 m j) Hb'; [|done..].
    destruct (merge_inv m j Hr Hj ho tps m' un Hho Hm) as (Hv & Hwf' & Hj' & Hun).
    apply (build_inv ho2 m' (spec_merge j tps)) in Hb' as ->; [|done..].
    destruct (journal_trns_split j tps Hwf Hv) as (old & new & -> & _ & H).
    exists (stable_sort (by_key tp_date) old). split.
    - apply stable_sort_sublist; [apply by_key_total|apply by_key_trans|]. by apply sublist_inserts_r.
    - eapply Forall2_sort; [|exact H]. intros a b c d [E1 _] [E2 _]. unfold by_key, tp_date. by rewrite E1, E2.
  Qed.
  Lemma built_refined ho ho1 ho2 tps m' un out out' :
    hash_order_ok ho → hash_order_ok ho1 → hash_order_ok ho2 →
    merge ho m tps = (m', Ok un) → build ho1 m = Ok out → build ho2 m' = Ok out' →
    ∃ out0, sublist out0 out' ∧ Forall2 trn_extends out out0.
  Proof.
    intros Hho Hho1 Hho2 Hm Hb Hb'.
    destruct (built_extends ho ho1 ho2 tps m' un out out') as (out0 & Hs & H); try done.
    exists out0. split; [done|]. eapply Forall2_impl; [exact H|].
    intros a b (E & ps & extra & E' & HF & _). split; [done|]. eauto.
  Qed.
  Lemma built_balance ho ho1 ho2 tps m' un out out' :
    hash_order_ok ho → hash_order_ok ho1 → hash_order_ok ho2 →
    merge ho m tps = (m', Ok un) → build ho1 m = Ok out → build ho2 m' = Ok out' →
    ∃ out0, sublist out0 out' ∧
      Forall2 (λ a b, tp_trn b = tp_trn a ∧ ∃ extra, (∀ p, p ∈ extra → newly_added j tps p) ∧
        length (tp_posts b) = length (tp_posts a) + length extra ∧
        ∀ c, (posts_value c (tp_posts b) == posts_value c (tp_posts a) + posts_value c extra)%Q) out out0.
  Proof.
    intros Hho Hho1 Hho2 Hm Hb Hb'.
    destruct (built_extends ho ho1 ho2 tps m' un out out') as (out0 & Hs & H); try done.
    exists out0. split; [done|]. eapply Forall2_impl; [exact H|].
    intros a b (E & ps & extra & E' & HF & Hx). split; [done|]. exists extra. split_and!; [done|..].
    - rewrite E', app_length. f_equal. symmetry. by eapply Forall2_length.
    - intros c. rewrite E', posts_value_app. by rewrite (posts_value_refines c _ _ HF).
  Qed.
  Lemma built_stays_balanced ho ho1 ho2 tps m' un out out' :
    hash_order_ok ho → hash_order_ok ho1 → hash_order_ok ho2 →
    merge ho m tps = (m', Ok un) → build ho1 m = Ok out → build ho2 m' = Ok out' →
    (∀ p, ¬ newly_added j tps p) →
    length out' = length out ∧
    Forall2 (λ a b, tp_trn b = tp_trn a ∧ ∀ c, (posts_value c (tp_posts b) == posts_value c (tp_posts a))%Q) out out'.
  Proof.
    intros Hho Hho1 Hho2 Hm Hb Hb' Hnone.
    destruct (built_balance ho ho1 ho2 tps m' un out out') as (out0 & Hs & H); try done.
    assert (out0 = out') as ->.
    {
      destruct (merge_inv m j Hr Hj ho tps m' un Hho Hm) as (Hv & Hwf' & Hj' & Hun).
      assert (length out0 = length out') as Hl.
      { rewrite <- (Forall2_length _ _ _ H).
        apply (build_inv ho1 m j) in Hb as ->; [|done..].
        apply (build_inv ho2 m' (spec_merge j tps)) in Hb' as ->; [|done..].
        rewrite !stable_sort_perm. unfold journal_trns. rewrite !imap_length, spec_merge_closed. cbn [j_trns].
        rewrite app_length. enough (new_trns j tps = []) as -> by (simpl; lia).
        unfold new_trns. replace (filter _ tps) with (@nil transaction_postings); [done|].
        symmetry. apply elem_of_nil_inv. intros tp [Hf Htp]%elem_of_list_filter.
        unfold is_true, fresh in Hf. rewrite andb_true_iff, negb_true_iff, bool_decide_eq_true in Hf. destruct Hf as [El Ed].
        pose proof El as Hm'%to_merge_spec. pose proof Hm' as [Hne _].
        destruct (tp_posts tp) as [|p ps] eqn:Eps; [done|].
        apply (Hnone p). exists tp. split_and!; [done|done|rewrite Eps; left|].
        apply matches_nothing_spec.
        assert (p ∈ tp_posts tp) as Hp by (rewrite Eps; left).
        destruct (todo_cases j tps Hwf Hv p (lookup_posting j (tp_date tp) p)) as [->|(k & E & _)]; [|done|].
        - apply elem_of_list_bind. exists tp. split; [by apply elem_of_todo|done].
        - assert (k ∈ dests j tp) as Hk.
          { unfold dests, verdicts. apply elem_of_list_omap. exists (VMerge k). split; [|done].
            apply elem_of_list_fmap. exists p. by rewrite E. }
          rewrite Ed in Hk. by apply elem_of_nil in Hk. }
      clear -Hs Hl. induction Hs as [|x l k Hs IH|x l k Hs IH]; [done|..].
      - f_equal. apply IH. simpl in Hl. lia.
      - apply sublist_length in Hs. simpl in Hl. lia. }
    split; [symmetry; by eapply Forall2_length|].
    eapply Forall2_impl; [exact H|]. intros a b (E & extra & Hx & _ & Hc). split; [done|]. intros c.
    destruct extra as [|p extra]; [|destruct (Hnone p); apply Hx; left].
    rewrite Hc. simpl. apply Qplus_0_r.
  Qed.

  (** C11 *)
  Lemma handed_back_spec ho tps m' un : hash_order_ok ho → merge ho m tps = (m', Ok un) →
    ∃ lo : transaction_postings → bool, (∀ tp, lo tp = true ↔ ¬ to_merge j tp) ∧
      Forall2 (handed_back j) (filter (λ tp, lo tp = true) tps) un ∧
      merge ho m (filter (λ tp, lo tp = false) tps) = (m', Ok []).
  Proof.
    intros Hho Hm. destruct (merge_inv m j Hr Hj ho tps m' un Hho Hm) as (Hv & Hwf' & Hj' & Hun).
    exists (left_out j). split_and!.
    - intros tp. apply lo_of_spec.
    - eapply Forall2_impl; [exact Hun|]. intros. by apply returned_as_handed.
    - assert (valid_set j (filter (λ tp, left_out j tp = false) tps)) as Hv'
        by (eapply valid_set_sublist; [apply sublist_filter'|done]).
      destruct (merge_accepts ho Hho m j _ Hj Hwf Hv') as (_ & m'' & un' & E & Hj'' & Hun').
      rewrite spec_merge_kept in Hj''. rewrite E, (represents_merger m'' m' _ Hj'' Hj'). do 2 f_equal.
      replace (filter (λ tp, left_out j tp = true) (filter (λ tp, left_out j tp = false) tps))
        with (@nil transaction_postings) in Hun'; [by apply Forall2_nil_inv_l in Hun'|].
      symmetry. apply elem_of_nil_inv. intros tp [E1 [E2 _]%elem_of_list_filter]%elem_of_list_filter. congruence.
  Qed.

  (** C16 *)
  Lemma independent ho ho1 ho2 tps m' un out out' :
    hash_order_ok ho → hash_order_ok ho1 → hash_order_ok ho2 →
    (∀ tp p, tp ∈ tps → p ∈ tp_posts tp → matches_nothing j (tp_date tp) p) →
    merge ho m tps = (m', Ok un) → build ho1 m = Ok out → build ho2 m' = Ok out' →
    out' = stable_sort (by_key tp_date) (out ++ filter (λ tp, tp_posts tp ≠ []) tps) ∧
    un = filter (λ tp, tp_posts tp = []) tps.
  Proof.
    intros Hho Hho1 Hho2 Hn Hm ->%(build_inv ho1 m j) Hb'; [|done..].
    destruct (merge_inv m j Hr Hj ho tps m' un Hho Hm) as (Hv & Hwf' & Hj' & Hun).
    apply (build_inv ho2 m' (spec_merge j tps)) in Hb' as ->; [|done..].
    assert (∀ tp p, tp ∈ tps → p ∈ tp_posts tp → lookup_posting j (tp_date tp) p = VNew) as Hn'.
    { intros. apply matches_nothing_spec; auto. }
    rewrite spec_merge_all_new by (try apply Hwf; done). split.
    - by rewrite sort_sort_app.
    - rewrite (left_out_all_new j tps Hn') in Hun. by eapply returned_empty.
  Qed.
  Lemma additive ho tps tps' m' un ho0 ho' out out' :
    hash_order_ok ho → hash_order_ok ho0 → hash_order_ok ho' →
    merge ho m (tps ++ tps') = (m', Ok un) → build ho0 m = Ok out → build ho' m' = Ok out' →
    ∃ m1 un1 out1 m2 un2 out2,
      merge ho m tps = (m1, Ok un1) ∧ build ho' m1 = Ok out1 ∧
      merge ho m tps' = (m2, Ok un2) ∧ build ho' m2 = Ok out2 ∧
      Forall2 equal_but_candidates un (un1 ++ un2) ∧
      length out' + length out = length out1 + length out2 ∧
      length (all_posts out') + length (all_posts out) = length (all_posts out1) + length (all_posts out2).
  Proof.
    intros Hho Hho0 Hho' Hm Hb Hb'.
    destruct (merge_inv m j Hr Hj ho _ m' un Hho Hm) as (Hv & Hwf' & Hj' & Hun).
    assert (valid_set j tps) as Hv1 by (apply (valid_set_sublist j (tps ++ tps')); [by apply sublist_inserts_r|done]).
    assert (valid_set j tps') as Hv2 by (apply (valid_set_sublist j (tps ++ tps')); [by apply sublist_inserts_l|done]).
    destruct (merge_accepts ho Hho m j _ Hj Hwf Hv1) as (Hwf1 & m1 & un1 & E1 & Hj1 & Hun1).
    destruct (merge_accepts ho Hho m j _ Hj Hwf Hv2) as (Hwf2 & m2 & un2 & E2 & Hj2 & Hun2).
    destruct (never_panics m1 (spec_merge j tps)) with (ho := ho') (tps := tps) as [_ [out1 Hb1]]; try done.
    { replace m1 with (merge ho m tps).1 by by rewrite E1. by constructor. }
    destruct (never_panics m2 (spec_merge j tps')) with (ho := ho') (tps := tps) as [_ [out2 Hb2]]; try done.
    { replace m2 with (merge ho m tps').1 by by rewrite E2. by constructor. }
    exists m1, un1, out1, m2, un2, out2. split_and!; try done.
    - rewrite filter_app in Hun. eapply Forall2_agree; [|exact Hun|by apply Forall2_app].
      intros. by eapply returned_as_agree.
    - apply (build_inv ho0 m j) in Hb as ->; [|done..].
      apply (build_inv ho' m' (spec_merge j (tps ++ tps'))) in Hb' as ->; [|done..].
      apply (build_inv ho' m1 (spec_merge j tps)) in Hb1 as ->; [|done..].
      apply (build_inv ho' m2 (spec_merge j tps')) in Hb2 as ->; [|done..].
      rewrite !stable_sort_perm. unfold journal_trns. rewrite !imap_length, !spec_merge_closed. cbn [j_trns].
      rewrite !app_length. unfold new_trns. rewrite filter_app, fmap_app, app_length. lia.
    - rewrite (Permutation_length (built_posts_perm ho0 m j out Hho0 Hj Hwf Hb)).
      rewrite (Permutation_length (built_posts_perm ho' m' _ out' Hho' Hj' Hwf' Hb')).
      rewrite (Permutation_length (built_posts_perm ho' m1 _ out1 Hho' Hj1 Hwf1 Hb1)).
      rewrite (Permutation_length (built_posts_perm ho' m2 _ out2 Hho' Hj2 Hwf2 Hb2)).
      rewrite !spec_merge_closed. cbn [j_posts]. rewrite !fmap_length, !app_length, !imap_length.
      assert (∀ l n n', length (new_posts j n l) = length (new_posts j n' l)) as Hlen.
      { intros l. induction l as [|tp l IH]; intros n n'; [done|]. cbn [new_posts]. rewrite !app_length.
        unfold new_of. rewrite !fmap_length. f_equal. apply IH. }
      assert (∀ l k n, length (new_posts j n (l ++ k)) = length (new_posts j n l) + length (new_posts j n k)) as Happ.
      { intros l. induction l as [|tp l IH]; intros k n; [done|]. cbn [new_posts app]. rewrite !app_length, IH.
        rewrite (Hlen k (if fresh j tp then S n else n) n). lia. }
      rewrite Happ. lia.
  Qed.

  (** C17 *)
  Lemma order_irrelevant ho ho' tps : hash_order_ok ho → hash_order_ok ho' →
    (merge ho m tps).1 = (merge ho' m tps).1 ∧ build ho m = build ho' m ∧
    ((∃ un un', (merge ho m tps).2 = Ok un ∧ (merge ho' m tps).2 = Ok un' ∧ Forall2 equal_but_candidates un un') ∨
     (∃ e e', (merge ho m tps).2 = Err e ∧ (merge ho' m tps).2 = Err e')).
  Proof.
    intros Hho Hho'. destruct (merge ho m tps) as [m1 r1] eqn:E1. destruct (merge ho' m tps) as [m2 r2] eqn:E2.
    simpl. split_and!.
    - destruct (merge_cases ho m j tps m1 _ Hho Hj Hwf E1) as [(? & ? & HU1 & _)|(? & -> & _)];
      destruct (merge_cases ho' m j tps m2 _ Hho' Hj Hwf E2) as [(? & ? & HU2 & _)|(? & -> & _)]; try done.
      by eapply represents_merger.
    - rewrite (build_refines ho Hho m j Hj), (build_refines ho' Hho' m j Hj). done.
    - destruct (merge_cases ho m j tps m1 _ Hho Hj Hwf E1) as [(? & ? & ? & un & -> & HU1)|(? & _ & e & ->)];
      destruct (merge_cases ho' m j tps m2 _ Hho' Hj Hwf E2) as [(? & ? & ? & un' & -> & HU2)|(? & _ & e' & ->)]; try done.
      + left. exists un, un'. split_and!; try done. eapply Forall2_agree; [|exact HU1|exact HU2].
        intros. by eapply returned_as_agree.
      + right. eauto.
  Qed.

  (** C20 *)
  Lemma empties_returned ho tps m' un tp : hash_order_ok ho → merge ho m tps = (m', Ok un) →
    tp ∈ tps → tp_posts tp = [] → tp ∈ un.
  Proof.
    intros Hho Hm Htp He. destruct (merge_inv m j Hr Hj ho tps m' un Hho Hm) as (Hv & Hwf' & Hj' & Hun).
    assert (tp ∈ filter (λ tp, left_out j tp = true) tps) as Hin.
    { apply elem_of_list_filter. split; [|done]. unfold left_out. by rewrite He. }
    clear -Hun Hin He. induction Hun as [|a b l k [E1 E2] H IH]; [by apply elem_of_nil in Hin|].
    apply elem_of_cons in Hin as [->|Hin]; [|right; auto].
    rewrite He in E2. apply Forall2_nil_inv_l in E2. assert (a = b) as -> by (destruct a, b; simpl in *; congruence). left.
  Qed.
  Lemma no_empties ho out tp : hash_order_ok ho → build ho m = Ok out → tp ∈ out → tp_posts tp ≠ [].
  Proof.
    intros Hho ->%(build_inv ho m j) Hin; [|done..]. rewrite stable_sort_perm in Hin.
    unfold journal_trns in Hin. apply elem_of_list_lookup in Hin as [t Ht]. rewrite list_lookup_imap in Ht.
    destruct (j_trns j !! t) as [h|] eqn:Eh; simplify_eq/=. apply lookup_lt_Some in Eh.
    destruct (jw_nonempty _ Hwf t Eh) as (x & Hx & Hxt). intros E%fmap_nil_inv.
    assert (x ∈ filter (λ x, jp_trn x = t) (j_posts j)) as Hf by by apply elem_of_list_filter.
    rewrite E in Hf. by apply elem_of_nil in Hf.
  Qed.
End laws.

(** C07 *)
Lemma journal_new_nothing d p : matches_nothing journal_new d p.
Proof. split; intros k (x & Hx & _); done. Qed.
Lemma from_empty_valid tps :
  (∀ p, p ∈ all_posts tps → mergeable p) → fps_distinct (all_posts tps) → acceptable journal_new tps.
Proof.
  intros H1 H2. split; [done|done|..].
  - intros p _ (i & k & _ & (x & Hx & _) & _). done.
  - intros tp p q i k x y _ _ _ _ _ _ Hx. done.
  - intros a b a' b' tp tp' p p' i _ _ _ _ _ _ [[(x & Hx & _) _]|(_ & (x & Hx & _) & _)]; done.
Qed.
Lemma from_empty ho ho' tps :
  hash_order_ok ho → hash_order_ok ho' →
  (∀ p, p ∈ all_posts tps → mergeable p) → fps_distinct (all_posts tps) →
  ∃ m', merge ho merger_new tps = (m', Ok (filter (λ tp, tp_posts tp = []) tps)) ∧
        build ho' m' = Ok (stable_sort (by_key tp_date) (filter (λ tp, tp_posts tp ≠ []) tps)).
Proof.
  intros Hho Hho' H1 H2.
  destruct (merge_ok_iff merger_new journal_new reach_new rep_new ho tps Hho) as [_ (m' & un & Hm)].
  { by apply from_empty_valid. }
  destruct (never_panics merger_new journal_new reach_new rep_new ho' tps Hho') as [_ [out Hb]].
  assert (reachable m') as Hr'.
  { replace m' with (merge ho merger_new tps).1 by by rewrite Hm. constructor; [constructor|done]. }
  destruct (reachable_represents m' Hr') as (j' & Hj' & _).
  destruct (never_panics m' j' Hr' Hj' ho' tps Hho') as [_ [out' Hb']].
  destruct (independent merger_new journal_new reach_new rep_new ho ho' ho' tps m' un out out') as [-> ->]; try done.
  { intros. apply journal_new_nothing. }
  exists m'. split; [done|]. rewrite Hb'.
  apply (build_inv ho' merger_new journal_new) in Hb as ->; [done|done|apply rep_new].
Qed.

(** C09 *)
Lemma rebuild m ho ho1 ho2 out : reachable m → hash_order_ok ho → hash_order_ok ho1 → hash_order_ok ho2 →
  build ho m = Ok out → ∃ m', merge ho1 merger_new out = (m', Ok []) ∧ build ho2 m' = Ok out.
Proof.
  intros Hr Hho Hho1 Hho2 Hb. destruct (reachable_represents m Hr) as (j & Hj & Hwf).
  destruct (from_empty ho1 ho2 out Hho1 Hho2) as (m' & Hm & Hb').
  - intros p Hp. rewrite (built_posts_perm ho m j out) in Hp by done.
    apply elem_of_list_fmap in Hp as (x & -> & Hx). by apply Hwf.
  - by apply (built_distinct m j Hr Hj ho).
  - exists m'.
    assert (∀ tp, tp ∈ out → tp_posts tp ≠ []) as Hne by (intros; by eapply (no_empties m j Hr Hj ho out)).
    rewrite Hm, Hb'. split.
    + do 2 f_equal. replace (filter (λ tp, tp_posts tp = []) out) with (@nil transaction_postings); [done|].
      symmetry. apply elem_of_nil_inv. intros tp [E Hin]%elem_of_list_filter. by eapply Hne.
    + f_equal. rewrite filter_all by done. apply (stable_sort_id (by_key tp_date)).
      by apply (built_sorted m j Hj ho).
Qed.

(** Proofs for C151: a set that a journal knows by some of its fingerprints. *)
From Verif Require Import MergeClaims.
From Verif Require Import Base Types CommentModel MergeModel SpecBase BaseProofs MergeSpec MergeClaims
  MergeProofs MergePending MergeApply MergeBuild MergeClosed MergeLemmas MergePlaces MergeLaws MergeLaws2
  MergeLaws3 MergeLaws4 MergeReplay MergeLaws5 EditClaims MergeEdit ResolveClaims NwCsvModel ImportClaims ImportRows ImportLaws ImportDays FewerClaims Fewer.
From Coq Require Import Lia.
Local Open Scope nat_scope.

Section known.
  Context (j : journal) (s : list transaction_postings) (Hwf : journal_wf j) (Hok : journal_ok s).
  Context (Hhome : ∀ tp p, tp ∈ s → p ∈ tp_posts tp → ∃ i x, j_posts j !! i = Some x ∧ share_fp (jp_post x) p ∧
    ∀ k y, j_posts j !! k = Some y → share_fp (jp_post y) p → k = i).
  Context (Hgroup : ∀ tp p q x y, tp ∈ s → p ∈ tp_posts tp → q ∈ tp_posts tp → x ∈ j_posts j → y ∈ j_posts j →
    share_fp (jp_post x) p → share_fp (jp_post y) q → jp_trn x = jp_trn y).
  Context (Hone : ∀ u v p q x, all_posts s !! u = Some p → all_posts s !! v = Some q → x ∈ j_posts j →
    share_fp (jp_post x) p → share_fp (jp_post x) q → u = v).

  Lemma known_lookup tp p : tp ∈ s → p ∈ tp_posts tp → ∃ i x, j_posts j !! i = Some x ∧
    lookup_posting j (tp_date tp) p = VMerge i ∧ fp_hits j p = [i] ∧ share_fp (jp_post x) p.
  Proof.
    intros Htp Hp. destruct (Hhome tp p Htp Hp) as (i & x & Hx & Hsh & Hu).
    assert (fp_hits j p = [i]) as E.
    { apply NoDup_single; [apply NoDup_positions|]. split; [apply elem_of_fp_hits; eauto|].
      intros k (y & Hy & Hyp)%elem_of_fp_hits. eauto. }
    exists i, x. split_and!; try done. unfold lookup_posting. by rewrite E.
  Qed.
  Lemma known_kept tp : tp ∈ s → left_out j tp = false.
  Proof.
    intros Htp. apply to_merge_spec. split; [by apply Hok|].
    intros p Hp Ha%ambiguous_is. destruct (known_lookup tp p Htp Hp) as (i & x & _ & E & _). by rewrite E in Ha.
  Qed.
  Lemma known_valid : valid_set j s.
  Proof.
    destruct Hok as (H1 & H2 & H3).
    rewrite valid_set_declarative. split; [done|done|..].
    - intros p (tp & Hp & Htp)%elem_of_list_bind Hc%conflicting_spec.
      destruct (known_lookup tp p Htp Hp) as (i & x & _ & _ & E & _). rewrite E in Hc. simpl in Hc. lia.
    - intros tp p q i k x y Htp _ Hp Hq Hi%selects_spec Hk%selects_spec Hx Hy.
      destruct (known_lookup tp p Htp Hp) as (i' & x' & Hx' & E & _ & Hs1).
      destruct (known_lookup tp q Htp Hq) as (k' & y' & Hy' & E' & _ & Hs2).
      assert (i' = i) as -> by congruence. assert (k' = k) as -> by congruence.
      assert (x' = x) as -> by congruence. assert (y' = y) as -> by congruence.
      eapply (Hgroup tp p q); try done; by eapply elem_of_list_lookup_2.
    - intros a b a' b' tp tp' p p' i Ha Hb Ha' Hb' _ _ Hi%selects_spec Hi'%selects_spec.
      destruct (known_lookup tp p) as (i1 & x & Hx & E & _ & Hs1); [by eapply elem_of_list_lookup_2..|].
      destruct (known_lookup tp' p') as (i2 & y & Hy & E' & _ & Hs2); [by eapply elem_of_list_lookup_2..|].
      assert (i1 = i) as -> by congruence. assert (i2 = i) as -> by congruence. assert (y = x) as -> by congruence.
      assert (∀ a b tp p, s !! a = Some tp → tp_posts tp !! b = Some p →
        all_posts s !! (length (all_posts (take a s)) + b) = Some p) as Hpos.
      { clear. induction s as [|tp0 l IH]; intros a b tp p Ha Hb; [done|].
        change (all_posts (tp0 :: l)) with (tp_posts tp0 ++ all_posts l). destruct a as [|a]; simplify_eq/=.
        - rewrite lookup_app_l; [done|]. by eapply lookup_lt_Some.
        - change (all_posts (tp0 :: take a l)) with (tp_posts tp0 ++ all_posts (take a l)).
          rewrite app_length, lookup_app_r by lia.
          replace (length (tp_posts tp0) + length (all_posts (take a l)) + b - length (tp_posts tp0))
            with (length (all_posts (take a l)) + b) by lia. by eapply IH. }
      assert (length (all_posts (take a s)) + b = length (all_posts (take a' s)) + b') as E3.
      { eapply (Hone _ _ p p' x); eauto. by eapply elem_of_list_lookup_2. }
      (* the offsets determine the positions *)
      assert (∀ a a', a < a' → ∀ tp, s !! a = Some tp →
        length (all_posts (take a s)) + length (tp_posts tp) ≤ length (all_posts (take a' s))) as Hmono.
      { clear. intros a a' Hlt tp Ha. rewrite <- (take_drop (Datatypes.S a) (take a' s)).
        rewrite take_take, Nat.min_l by lia. rewrite (take_S_r _ _ _ Ha).
        rewrite !all_posts_app, !app_length. cbn. rewrite app_nil_r. lia. }
      apply lookup_lt_Some in Hb, Hb'.
      destruct (lt_eq_lt_dec a a') as [[Hlt| ->]|Hlt].
      + specialize (Hmono _ _ Hlt _ Ha). lia.
      + split; [done|lia].
      + specialize (Hmono _ _ Hlt _ Ha'). lia.
  Qed.

  Lemma known_step : spec_merge j s =
    Journal (j_trns j) ((λ x, JP (jp_trn x) (jp_date x)
      (foldl merge_posting (jp_post x) (sharing (jp_post x) (all_posts s)))) <$> j_posts j).
  Proof.
    pose proof known_valid as Hv. rewrite spec_merge_closed.
    assert (∀ tp, tp ∈ s → dests j tp ≠ [] ∧ news_from (todo_of j tp) = []) as Hnn.
    { intros tp Htp. split.
      - destruct Hok as (_ & _ & H3). specialize (H3 tp Htp).
        destruct (tp_posts tp) as [|p ps] eqn:Ep; [done|].
        destruct (known_lookup tp p Htp) as (i & x & _ & E & _); [rewrite Ep; left|].
        intros En. assert (i ∈ dests j tp) as Hin.
        { unfold dests, verdicts. apply elem_of_list_omap. exists (VMerge i). split; [|done].
          apply elem_of_list_fmap. exists p. split; [done|]. rewrite Ep. left. }
        rewrite En in Hin. by apply elem_of_nil in Hin.
      - apply elem_of_nil_inv. intros p Hin. unfold news_from in Hin.
        apply elem_of_list_omap in Hin as ([q v] & Hin & E). apply elem_of_todo in Hin as (_ & Hq & ->).
        destruct (known_lookup tp q Htp Hq) as (i & x & _ & Ev & _). simpl in E. by rewrite Ev in E. }
    assert (new_trns j s = []) as ->.
    { unfold new_trns. clear -Hnn. induction s as [|tp l IH]; [done|].
      rewrite filter_cons_False; [apply IH; intros; apply Hnn; by right|].
      unfold fresh. destruct (Hnn tp) as [H _]; [left|]. rewrite bool_decide_eq_false_2 by done.
      by rewrite andb_false_r. }
    assert (∀ n, new_posts j n s = []) as ->.
    { clear -Hnn. induction s as [|tp l IH]; intros n; [done|]. cbn [new_posts]. unfold new_of.
      destruct (Hnn tp) as [_ ->]; [left|]. apply IH. intros; apply Hnn; by right. }
    rewrite !app_nil_r. f_equal. apply list_eq. intros i. rewrite list_lookup_imap, list_lookup_fmap.
    destruct (j_posts j !! i) as [x|] eqn:Hx; [|done]. simpl. f_equal. unfold absorb. f_equal. f_equal.
    assert (∀ p, p ∈ all_posts s → share_fp (jp_post x) p ↔ p ∈ merged_into j s i) as Hiff.
    { intros p (tp & Hp & Htp)%elem_of_list_bind. rewrite elem_of_merged_into. split.
      - intros Hsh. exists tp. split_and!; [done|by apply known_kept|done|].
        destruct (known_lookup tp p Htp Hp) as (k & y & Hy & E & E' & _).
        assert (i ∈ fp_hits j p) as Hi by (apply elem_of_fp_hits; eauto). rewrite E' in Hi.
        apply elem_of_list_singleton in Hi. by subst.
      - intros (tp' & Htp' & _ & Hp' & E). destruct (known_lookup tp' p Htp' Hp') as (k & y & Hy & E' & _ & ?).
        assert (k = i) as -> by congruence. by simplify_eq. }
    destruct (merged_into j s i) as [|q l] eqn:Em.
    - symmetry. apply filter_none. intros p Hp. rewrite share_fpb_spec. intros Hsh%Hiff; [|done]. by apply elem_of_nil in Hsh.
    - assert (q ∈ merged_into j s i) as Hq by (rewrite Em; left).
      pose proof (merged_into_one j s Hv i q Hq) as E1. rewrite Em in E1. simplify_eq.
      assert (q ∈ all_posts s) as Hin.
      { apply elem_of_merged_into in Hq as (tp & ? & _ & ? & _). apply elem_of_list_bind. eauto. }
      symmetry. apply filter_one; [|done|].
      + intros u v p p' Hu Hvv H1 H2. rewrite !share_fpb_spec in *.
        eapply (Hone u v p p' x); try done. by eapply elem_of_list_lookup_2.
      + rewrite share_fpb_spec. apply Hiff; [done|]. left.
  Qed.
End known.

Lemma known_merge J s ho1 ho2 : hash_order_ok ho1 → hash_order_ok ho2 → journal_ok J → journal_ok s → known_in J s →
  ∃ m1 m out, merge ho1 merger_new J = (m1, Ok []) ∧ merge ho2 m1 s = (m, Ok []) ∧ reachable m1 ∧
    (∀ ho, hash_order_ok ho → build ho m = Ok out) ∧ Forall2 trn_refines (stable_sort (by_key tp_date) J) out.
Proof.
  intros Hho1 Hho2 HJ Hok [Hkn Hone]. destruct (journal_loaded ho1 J Hho1 HJ) as (m1 & j & Hm1 & Hr1 & Hj & Hwf & EJ).
  assert (∀ i x, j_posts j !! i = Some x → ∃ tp, J !! jp_trn x = Some tp ∧ tp_posts tp !! rank (j_posts j) i (jp_trn x) = Some (jp_post x)) as Hpl.
  { intros i x Hx. rewrite <- EJ. by apply trns_place. }
  assert (∀ x, x ∈ j_posts j → jp_post x ∈ all_posts J) as Hin.
  { intros x [i Hx]%elem_of_list_lookup. destruct (Hpl i x Hx) as (tp & Ht & Hp). apply elem_of_list_bind. exists tp.
    split; by eapply elem_of_list_lookup_2. }
  assert (∀ tp p, tp ∈ s → p ∈ tp_posts tp → ∃ i x, j_posts j !! i = Some x ∧ share_fp (jp_post x) p ∧
    ∀ k y, j_posts j !! k = Some y → share_fp (jp_post y) p → k = i) as Hhome.
  { intros tp p Htp Hp. destruct (Hkn tp Htp) as (a & t & Ha & H). destruct (H p Hp) as (b & q & Hb & Hs & Hu).
    rewrite <- EJ in Ha. destruct (trns_post j a b t q Ha Hb) as (i & x & Hx & Et & Ep). exists i, x. rewrite Ep. split_and!; [done..|].
    intros k y Hy Hyp. destruct (Hpl k y Hy) as (ty & Hty & Hpy). destruct (Hpl i x Hx) as (tx & Htx & Hpx).
    destruct (Hu _ _ _ _ Hty Hpy Hyp) as [E1 E2]. rewrite Ep in Hpx. destruct (Hu _ _ _ _ Htx Hpx Hs) as [E3 E4].
    apply (rank_inj (j_posts j) k i y x Hy Hx); congruence. }
  assert (∀ tp p q x y, tp ∈ s → p ∈ tp_posts tp → q ∈ tp_posts tp → x ∈ j_posts j → y ∈ j_posts j →
    share_fp (jp_post x) p → share_fp (jp_post y) q → jp_trn x = jp_trn y) as Hgroup.
  { intros tp p q x y Htp Hp Hq [i Hx]%elem_of_list_lookup [k Hy]%elem_of_list_lookup Hxp Hyq. destruct (Hkn tp Htp) as (a & t & Ha & H).
    destruct (Hpl i x Hx) as (tx & Htx & Hpx). destruct (Hpl k y Hy) as (ty & Hty & Hpy).
    destruct (H p Hp) as (b & p' & _ & _ & Hu). destruct (H q Hq) as (b' & q' & _ & _ & Hu').
    destruct (Hu _ _ _ _ Htx Hpx Hxp) as [-> _]. by destruct (Hu' _ _ _ _ Hty Hpy Hyq) as [-> _]. }
  assert (∀ u v p q x, all_posts s !! u = Some p → all_posts s !! v = Some q → x ∈ j_posts j →
    share_fp (jp_post x) p → share_fp (jp_post x) q → u = v) as Hone'.
  { intros u v p q x Hu Hv Hx. apply (Hone u v p q); auto. }
  pose proof (known_valid j s Hok Hhome Hgroup Hone') as Hv. pose proof (known_kept j s Hok Hhome) as Hk.
  destruct (merge ho2 m1 s) as [m r] eqn:E.
  destruct (merge_cases ho2 m1 j s m r Hho2 Hj Hwf E) as [(_ & Hwf1 & Hj1 & un & -> & Hun)|(Hnv & _)]; [|done].
  rewrite clean_filter in Hun by done. apply Forall2_nil_inv_l in Hun as ->.
  eexists m1, m, _. split_and!; [done|done|done|intros ho Hho; apply (build_refines ho Hho m _ Hj1)|].
  rewrite (known_step j s Hok Hhome Hgroup Hone').
  set (g := λ p, foldl merge_posting p (sharing p (all_posts s))).
  match goal with |- context [journal_trns (Journal ?ts ?ps)] =>
    change (Journal ts ps) with (Journal ts ((λ x, JP (jp_trn x) (jp_date x) (g (jp_post x))) <$> j_posts j)) end.
  rewrite (journal_trns_fmap _ _ g). replace (Journal (j_trns j) (j_posts j)) with j by by destruct j.
  rewrite EJ. apply Forall2_sort.
  - intros a b c d [Ea _] [Ec _]. unfold by_key, tp_date. by rewrite Ea, Ec.
  - clear. induction J as [|t J IH]; constructor; [|exact IH]. split; [done|].
    apply Forall2_fmap_refines. intros p. apply foldl_refines.
Qed.
Lemma upgrade J s s' ho1 ho2 ho3 : hash_order_ok ho1 → hash_order_ok ho2 → hash_order_ok ho3 → journal_ok J → journal_ok s → known_in J s →
  Forall2 says_no_more s s' → (∀ p, p ∈ all_posts s' → mergeable p) →
  ∃ m1 m out, merge ho1 merger_new J = (m1, Ok []) ∧ merge ho2 m1 s = (m, Ok []) ∧ merge ho3 m s' = (m, Ok []) ∧
    (∀ ho, hash_order_ok ho → build ho m = Ok out) ∧ Forall2 trn_refines (stable_sort (by_key tp_date) J) out.
Proof.
  intros Hho1 Hho2 Hho3 HJ Hs Hkn HF Hmg. destruct (known_merge J s ho1 ho2 Hho1 Hho2 HJ Hs Hkn) as (m1 & m & out & H1 & H2 & Hr & Hb).
  exists m1, m, out. split_and!; [done|done| |apply Hb..]. by eapply (remerge_less m1 ho2 ho3 s s').
Qed.
Lemma fewer_known s J : fps_distinct (all_posts s) → fewer_fingerprints s J → known_in J s.
Proof.
  intros Hd HF.
  assert (∀ a t b q, J !! a = Some t → tp_posts t !! b = Some q →
    ∃ tp p, s !! a = Some tp ∧ tp_posts tp !! b = Some p ∧ (∃ f, has_fp q f) ∧ ∀ f, has_fp q f → has_fp p f) as Hback.
  { intros a t b q Ha Hb. destruct (Forall2_lookup_r _ _ _ _ _ HF Ha) as (tp & Htp & HP).
    destruct (Forall2_lookup_r _ _ _ _ _ HP Hb) as (p & Hp & ?). eauto 10. }
  split.
  - intros tp [a Ha]%elem_of_list_lookup. destruct (Forall2_lookup_l _ _ _ _ _ HF Ha) as (t & Ht & HP). exists a, t. split; [done|].
    intros p [b Hb]%elem_of_list_lookup. destruct (Forall2_lookup_l _ _ _ _ _ HP Hb) as (q & Hq & (f & Hf) & Hsub).
    exists b, q. split_and!; [done|exists f; auto|]. intros a' t' b' q' Ha' Hb' (g & Hg1 & Hg2).
    destruct (Hback a' t' b' q' Ha' Hb') as (tp' & p' & Htp' & Hp' & _ & Hsub').
    apply (same_place s a' b' a b tp' tp p' p Hd); try done. exists g. auto.
  - intros u v p q x Hu Hv (t & [b Hb]%elem_of_list_lookup & [a Ha]%elem_of_list_lookup)%elem_of_list_bind (f & Hf1 & Hf2) (g & Hg1 & Hg2).
    destruct (Hback a t b x Ha Hb) as (tp & y & Htp & Hy & _ & Hsub). pose proof (all_posts_at s a b tp y Htp Hy) as Hpos.
    transitivity (length (all_posts (take a s)) + b).
    + apply (Hd _ _ p y Hu Hpos). exists f. auto.
    + apply (Hd _ _ y q Hpos Hv). exists g. auto.
Qed.
Lemma legacy_upgrade pd hi f records ns ts ts' name rs J ho1 ho2 ho3 :
  hash_order_ok hi → hash_order_ok ho1 → hash_order_ok ho2 → hash_order_ok ho3 → parser_ok pd → fields_ok records →
  nw_csv_import pd hi (NwOpts true f) records = Ok (ns, ts') → nw_csv_import pd hi (NwOpts false f) records = Ok (ns, ts) →
  statement_reads pd records name rs → contiguous (rec_date <$> rs) → ¬ statement_collides rs →
  journal_ok J → known_in J (as_merged ts') →
  ∃ m1 m out, merge ho1 merger_new J = (m1, Ok []) ∧ merge ho2 m1 (as_merged ts') = (m, Ok []) ∧ merge ho3 m (as_merged ts) = (m, Ok []) ∧
    (∀ ho, hash_order_ok ho → build ho m = Ok out) ∧ Forall2 trn_refines (stable_sort (by_key tp_date) J) out.
Proof.
  intros Hhi Hho1 Hho2 Hho3 Hpd Hf H1 H2 Hs Hc Hcol HJ Hkn. apply upgrade; try done.
  - by apply (import_ok pd hi (NwOpts true f) records ns ts' name rs).
  - by apply (legacy_no_more hi pd f records ns).
  - intros p. by apply (import_mergeable pd hi (NwOpts false f) records ns ts).
Qed.

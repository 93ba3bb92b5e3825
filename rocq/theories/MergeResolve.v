(** Inputs the journal already contains; transactions handed back, edited by the
    user and merged again (C93, C94). *)
From Verif Require Import Base Types CommentModel MergeModel SpecBase BaseProofs MergeSpec MergeClaims
  MergeProofs MergePending MergeApply MergeBuild MergeClosed MergeLemmas MergePlaces MergeLaws MergeLaws2
  MergeLaws3 MergeLaws4 MergeReplay MergeLaws5 PropsMergeProofs EditClaims MergeEdit ResolveClaims.
From Coq Require Import Lia.
Local Open Scope nat_scope.

Lemma has_all_absorbed x p : has_all x p → absorbed x p.
Proof.
  intros [H1 H2 H3 H4 H5 H6]. split; [done|done| |done|done].
  destruct H4 as [->|[->|[-> ->]]].
  - by destruct (p_status (pi_raw x)) as [[]|].
  - by destruct (p_status (pi_raw x)) as [[]|].
  - done.
Qed.
Lemma has_all_merge x p : has_all x p → merge_posting x p = x.
Proof.
  intros H. rewrite merge_absorbed by by apply has_all_absorbed. unfold with_values.
  destruct x as [raw [ls ts vs]]. simpl. do 2 f_equal. apply map_subseteq_union. apply (ha_values _ _ H).
Qed.

Section contained.
  Context (m : merger) (j : journal) (Hr : reachable m) (Hj : represents m j).
  Let Hwf : journal_wf j := reachable_wf m j Hr Hj.
  Context (tps : list transaction_postings) (trn : nat → nat) (loc : nat → nat → nat).
  Context (Hne : ∀ tp, tp ∈ tps → tp_posts tp ≠ []).
  Context (Hmg : ∀ p, p ∈ all_posts tps → mergeable p).
  Context (Hloc : ∀ a b tp p, tps !! a = Some tp → tp_posts tp !! b = Some p →
    ∃ x, j_posts j !! loc a b = Some x ∧ jp_trn x = trn a ∧ has_all (jp_post x) p).
  Context (Hinj : ∀ a b a' b' tp tp', tps !! a = Some tp → b < length (tp_posts tp) →
    tps !! a' = Some tp' → b' < length (tp_posts tp') → loc a b = loc a' b' → a = a' ∧ b = b').

  Lemma contained_hits a b tp p : tps !! a = Some tp → tp_posts tp !! b = Some p → fp_hits j p = [loc a b].
  Proof using All.
    intros Ha Hb. destruct (Hloc a b tp p Ha Hb) as (x & Hx & _ & Hh).
    assert (p ∈ all_posts tps) as Hp.
    { apply elem_of_list_bind. exists tp. split; by eapply elem_of_list_lookup_2. }
    apply NoDup_single; [apply NoDup_positions|].
    destruct (Hmg p Hp) as [(f & Hf & Ht) _].
    assert (∀ g, has_fp p g → has_fp (jp_post x) g) as Hsub.
    { intros g [Hg Hgt]. split; [done|]. apply (ha_tags _ _ Hh); [done|]. intros ->. by apply unknown_not_fp. }
    split.
    - apply elem_of_fp_hits. exists x. split; [done|]. exists f. split; [by apply Hsub|done].
    - intros k (y & Hy & (g & Hg1 & Hg2))%elem_of_fp_hits.
      apply (jw_distinct _ Hwf k (loc a b) (jp_post y) (jp_post x)).
      + by rewrite list_lookup_fmap, Hy.
      + by rewrite list_lookup_fmap, Hx.
      + exists g. split; [done|]. by apply Hsub.
  Qed.
  Lemma contained_verdict a b tp p : tps !! a = Some tp → tp_posts tp !! b = Some p →
    lookup_posting j (tp_date tp) p = VMerge (loc a b).
  Proof using All. intros Ha Hb. unfold lookup_posting. by rewrite (contained_hits a b tp p). Qed.
  Lemma contained_kept tp : tp ∈ tps → left_out j tp = false.
  Proof using All.
    intros [a Ha]%elem_of_list_lookup. apply to_merge_spec. split.
    - apply Hne. by eapply elem_of_list_lookup_2.
    - intros p [b Hb]%elem_of_list_lookup Hp%ambiguous_is. by rewrite (contained_verdict a b tp p) in Hp.
  Qed.
  Lemma contained_acceptable : acceptable j tps.
  Proof using All.
    split.
    - done.
    - intros u v p q Hu Hv (f & Hf1 & Hf2).
      destruct (all_posts_lookup tps u p Hu) as (a & b & tp & Ha & Hb & Hoff).
      destruct (all_posts_lookup tps v q Hv) as (a' & b' & tp' & Ha' & Hb' & Hoff').
      assert (loc a b = loc a' b') as E.
      { destruct (Hloc a b tp p Ha Hb) as (x & Hx & _ & Hh).
        assert (loc a b ∈ fp_hits j q) as Hin.
        { apply elem_of_fp_hits. exists x. split; [done|]. exists f. split; [|done].
          destruct Hf1 as [Hf Ht]. split; [done|]. apply (ha_tags _ _ Hh); [done|]. intros ->. by apply unknown_not_fp. }
        rewrite (contained_hits a' b' tp' q Ha' Hb') in Hin. by apply elem_of_list_singleton in Hin. }
      destruct (Hinj a b a' b' tp tp' Ha (lookup_lt_Some _ _ _ Hb) Ha' (lookup_lt_Some _ _ _ Hb') E) as [-> ->].
      congruence.
    - intros p (tp & Hb & Ha)%elem_of_list_bind Hc%conflicting_spec.
      apply elem_of_list_lookup in Ha as [a Ha]. apply elem_of_list_lookup in Hb as [b Hb].
      rewrite (contained_hits a b tp p) in Hc by done. simpl in Hc. lia.
    - intros tp p q i k x y Ha _ Hb Hb' Hi Hk Hx Hy.
      apply elem_of_list_lookup in Ha as [a Ha]. apply elem_of_list_lookup in Hb as [b Hb].
      apply elem_of_list_lookup in Hb' as [b' Hb'].
      apply selects_spec in Hi, Hk. rewrite (contained_verdict a b tp p) in Hi by done.
      rewrite (contained_verdict a b' tp q) in Hk by done. simplify_eq.
      destruct (Hloc a b tp p Ha Hb) as (x' & Hx' & Ht & _). destruct (Hloc a b' tp q Ha Hb') as (y' & Hy' & Ht' & _).
      congruence.
    - intros a b a' b' tp tp' p p' i Ha Hb Ha' Hb' _ _ Hi Hi'.
      apply selects_spec in Hi, Hi'. rewrite (contained_verdict a b tp p) in Hi by done.
      rewrite (contained_verdict a' b' tp' p') in Hi' by done. simplify_eq.
      eapply Hinj; try done; by eapply lookup_lt_Some.
  Qed.
  Lemma contained_step a tp : tps !! a = Some tp → apply_trn j j tp = j.
  Proof using All.
    intros Ha. assert (tp ∈ tps) as Hin by by eapply elem_of_list_lookup_2.
    unfold apply_trn. rewrite (contained_kept tp Hin).
    assert (∀ t, foldl (apply_posting t (tp_date tp)) (j_posts j) (zip (tp_posts tp) (verdicts j tp)) = j_posts j) as Hf.
    { intros t. unfold verdicts.
      assert (∀ l, (∀ p, p ∈ l → p ∈ tp_posts tp) →
        foldl (apply_posting t (tp_date tp)) (j_posts j) (zip l (lookup_posting j (tp_date tp) <$> l)) = j_posts j) as H.
      { induction l as [|p l IH]; intros Hl; [done|].
        rewrite fmap_cons. cbn [zip_with foldl].
        assert (p ∈ tp_posts tp) as [b Hb]%elem_of_list_lookup by (apply Hl; left).
        rewrite (contained_verdict a b tp p Ha Hb). unfold apply_posting at 2. cbn [fst snd].
        assert (alter (λ x, JP (jp_trn x) (jp_date x) (merge_posting (jp_post x) p)) (loc a b) (j_posts j) = j_posts j) as ->.
        { apply list_eq. intros k. destruct (decide (loc a b = k)) as [<-|Hk].
          - rewrite list_lookup_alter. destruct (Hloc a b tp p Ha Hb) as (x & -> & _ & Hh). simpl.
            rewrite (has_all_merge _ _ Hh). by destruct x.
          - by rewrite list_lookup_alter_ne. }
        apply IH. intros q Hq. apply Hl. by right. }
      by apply H. }
    destruct (dests j tp ≫= _) as [|t ts] eqn:E.
    - exfalso. destruct (tp_posts tp) as [|p ps] eqn:Eps; [by apply (Hne tp)|].
      assert (tp_posts tp !! 0 = Some p) as Hb by by rewrite Eps.
      destruct (Hloc a 0 tp p Ha Hb) as (x & Hx & _).
      assert (jp_trn x ∈ dests j tp ≫= (λ i, option_list (jp_trn <$> j_posts j !! i))) as Hx'.
      { apply elem_of_list_bind. exists (loc a 0). split; [rewrite Hx; left|].
        unfold dests, verdicts. apply elem_of_list_omap. exists (VMerge (loc a 0)). split; [|done].
        apply elem_of_list_fmap. exists p. split; [by rewrite (contained_verdict a 0 tp p)|].
        by eapply elem_of_list_lookup_2. }
      rewrite E in Hx'. by apply elem_of_nil in Hx'.
    - rewrite Hf. by destruct j.
  Qed.
  Lemma contained_merge ho : hash_order_ok ho → merge ho m tps = (m, Ok []).
  Proof using All.
    intros Hho. destruct (proj2 (merge_ok_iff m j Hr Hj ho tps Hho) contained_acceptable) as (m' & un & Hm).
    destruct (merge_inv m j Hr Hj ho tps m' un Hho Hm) as (_ & _ & Hj' & Hun).
    rewrite (filter_none _ tps) in Hun by (intros tp Htp; rewrite (contained_kept tp Htp); done).
    apply Forall2_nil_inv_l in Hun as ->. rewrite Hm. f_equal.
    assert (spec_merge j tps = j) as E; [|rewrite E in Hj'; by eapply represents_merger].
    assert (∀ l, (∀ tp, tp ∈ l → tp ∈ tps) → foldl (apply_trn j) j l = j) as H.
    { induction l as [|tp l IH]; intros Hl; [done|]. simpl.
      assert (tp ∈ tps) as [a Ha]%elem_of_list_lookup by (apply Hl; left).
      rewrite (contained_step a tp Ha). apply IH. intros; apply Hl; by right. }
    by apply H.
  Qed.
End contained.

(** ** Later states of the journal *)
Lemma fold_merge_fp g L : ∀ x, has_fp (foldl merge_posting x L) g → has_fp x g ∨ ∃ p, p ∈ L ∧ has_fp p g.
Proof.
  induction L as [|p L IH]; intros x H; [by left|]. simpl in H. apply IH in H as [H|(q & Hq & H)].
  - apply merge_posting_fp in H as [H|H]; [by left|]. right. exists p. split; [left|done].
  - right. exists q. split; [by right|done].
Qed.
Lemma fold_merge_keeps g L : ∀ x, has_fp x g → has_fp (foldl merge_posting x L) g.
Proof. induction L as [|p L IH]; intros x H; [done|]. simpl. apply IH. apply merge_posting_fp. by left. Qed.

Lemma step_keeps m j ho s j' i x : reachable m → represents m j → hash_order_ok ho → represents (merge ho m s).1 j' →
  j_posts j !! i = Some x → ∃ x', j_posts j' !! i = Some x' ∧ jp_trn x' = jp_trn x ∧
    ∀ g, has_fp (jp_post x) g → has_fp (jp_post x') g.
Proof.
  intros Hr Hj Hho Hj' Hx. pose proof (reachable_wf m j Hr Hj) as Hwf. destruct (merge ho m s) as [m' r] eqn:E.
  destruct (merge_cases ho m j s m' r Hho Hj Hwf E) as [(Hv & _ & Hj1 & _)|(_ & -> & _)].
  - simpl in Hj'. rewrite (represents_journal _ _ _ Hj' Hj1). rewrite spec_merge_closed. cbn [j_posts].
    rewrite lookup_app_l by (rewrite imap_length; by eapply lookup_lt_Some). rewrite list_lookup_imap, Hx. simpl.
    eexists. split; [done|]. split; [done|]. intros g. apply fold_merge_keeps.
  - simpl in Hj'. rewrite (represents_journal _ _ _ Hj' Hj). exists x. done.
Qed.
Lemma step_fp m j ho s j' k y g : reachable m → represents m j → hash_order_ok ho → represents (merge ho m s).1 j' →
  j_posts j' !! k = Some y → has_fp (jp_post y) g →
  (∃ x, j_posts j !! k = Some x ∧ has_fp (jp_post x) g) ∨
  (∃ tp p, tp ∈ s ∧ left_out j tp = false ∧ p ∈ tp_posts tp ∧ has_fp p g).
Proof.
  intros Hr Hj Hho Hj' Hy Hg. pose proof (reachable_wf m j Hr Hj) as Hwf. destruct (merge ho m s) as [m' r] eqn:E.
  destruct (merge_cases ho m j s m' r Hho Hj Hwf E) as [(Hv & _ & Hj1 & _)|(_ & -> & _)].
  - simpl in Hj'. rewrite (represents_journal _ _ _ Hj' Hj1) in Hy. rewrite spec_merge_closed in Hy. cbn [j_posts] in Hy.
    apply lookup_app_Some in Hy as [Hy|[_ Hy]].
    + rewrite list_lookup_imap in Hy. destruct (j_posts j !! k) as [x|] eqn:Hx; simplify_eq/=.
      apply fold_merge_fp in Hg as [Hg|(p & Hp & Hg)]; [left; eauto|].
      apply elem_of_merged_into in Hp as (tp & Htp & El & Hp & _). right. eauto 6.
    + apply elem_of_list_lookup_2, elem_of_new_posts in Hy as (tp & Htp & El & Hp & _). right. eauto 6.
  - simpl in Hj'. rewrite (represents_journal _ _ _ Hj' Hj) in Hy. left. eauto.
Qed.

Lemma after_reachable h : ∀ m, reachable m → Forall (λ s, hash_order_ok s.1) h → reachable (after m h).
Proof.
  induction h as [|[ho s] h IH]; intros m Hr Hh; [done|]. apply Forall_cons in Hh as [Hho Hh].
  apply IH; [|done]. by constructor.
Qed.
Lemma after_keeps h : ∀ m j j' i x, reachable m → represents m j → Forall (λ s, hash_order_ok s.1) h →
  represents (after m h) j' → j_posts j !! i = Some x →
  ∃ x', j_posts j' !! i = Some x' ∧ jp_trn x' = jp_trn x ∧ ∀ g, has_fp (jp_post x) g → has_fp (jp_post x') g.
Proof.
  induction h as [|[ho s] h IH]; intros m j j' i x Hr Hj Hh Hj' Hx.
  - rewrite (represents_journal _ _ _ Hj' Hj). exists x. done.
  - apply Forall_cons in Hh as [Hho Hh]. simpl in Hho.
    assert (reachable (merge ho m s).1) as Hr1 by by constructor.
    destruct (reachable_represents _ Hr1) as (j1 & Hj1 & _).
    destruct (step_keeps m j ho s j1 i x) as (x1 & Hx1 & Ht1 & Hf1); try done.
    destruct (IH _ j1 j' i x1 Hr1 Hj1 Hh Hj' Hx1) as (x' & Hx' & Ht' & Hf'). exists x'.
    split_and!; [done|congruence|auto].
Qed.
Lemma after_matches h : ∀ m j j' u k, reachable m → represents m j → Forall (λ s, hash_order_ok s.1) h →
  represents (after m h) j' → unrelated h u → fp_match_at j' u k → fp_match_at j u k.
Proof.
  induction h as [|[ho s] h IH]; intros m j j' u k Hr Hj Hh Hj' Hu Hk.
  - by rewrite <- (represents_journal _ _ _ Hj' Hj).
  - apply Forall_cons in Hh as [Hho Hh]. simpl in Hho.
    assert (reachable (merge ho m s).1) as Hr1 by by constructor.
    destruct (reachable_represents _ Hr1) as (j1 & Hj1 & _).
    destruct (IH _ j1 j' u k Hr1 Hj1 Hh Hj') as (y & Hy & g & Hg1 & Hg2); [|done|].
    { intros s' p Hs'. apply Hu. by right. }
    destruct (step_fp m j ho s j1 k y g) as [(x & Hx & Hg)|(tp & p & Htp & _ & Hp & Hg)]; try done.
    + exists x. split; [done|]. by exists g.
    + exfalso. apply (Hu (ho, s) p); [left| |by exists g]. apply elem_of_list_bind. eauto.
Qed.

(** ** Transactions handed back *)
Lemma handed_origin m j ho tps m1 un tp : reachable m → represents m j → hash_order_ok ho →
  merge ho m tps = (m1, Ok un) → tp ∈ un →
  ∃ a orig, tps !! a = Some orig ∧ left_out j orig = true ∧ handed_back j orig tp.
Proof.
  intros Hr Hj Hho Hm Htp. destruct (merge_inv m j Hr Hj ho tps m1 un Hho Hm) as (_ & _ & _ & Hun).
  apply elem_of_list_lookup in Htp as [c Hc]. destruct (Forall2_lookup_r _ _ _ _ _ Hun Hc) as (orig & Ho & Hb).
  apply elem_of_list_lookup_2, elem_of_list_filter in Ho as [El Ho]. apply elem_of_list_lookup in Ho as [a Ha].
  exists a, orig. split_and!; [done|done|by apply returned_as_handed].
Qed.
Lemma candidate_not_fp t : candidate_tag t → ¬ fp_tag t.
Proof. intros [s ->] [r E]. done. Qed.
Lemma candidate_not_unknown t : candidate_tag t → t ≠ UNKNOWN_ACCOUNT.
Proof. intros [s ->] E. done. Qed.

(** What a posting that was handed back looks like. *)
Record tagged (j : journal) (d : date) (p u : posting_internal) : Prop := {
  tg_raw : pi_raw u = pi_raw p;
  tg_lines : lines (pi_comment u) = lines (pi_comment p);
  tg_values : value_tags (pi_comment u) = value_tags (pi_comment p);
  tg_tags : ∀ t, ¬ candidate_tag t → (has_tag u t ↔ has_tag p t);
  tg_cand : ∀ f, has_tag u (s2l "candidate-" ++ f) → ambiguous j d p ∧
    ∃ i x, j_posts j !! i = Some x ∧ has_fp (jp_post x) f ∧ soft_match_at j d p i;
  tg_amb : no_candidates u → ¬ ambiguous j d p ∧ u = p;
}.
Lemma handed_tagged j d p u : no_candidates p →
  (ambiguous j d p ∧ candidate_tagged j d p u) ∨ (¬ ambiguous j d p ∧ u = p) → tagged j d p u.
Proof.
  intros Hp [[Ha (H1 & H2 & H3 & l & fs & Hl & Hls & HF & Ht)]|[Hn ->]].
  - split; [done|done|done|..].
    + intros t Hc. rewrite Ht. split; [|by left]. intros [?|(f & _ & ->)]; [done|]. destruct Hc. by exists f.
    + intros f Hf. split; [done|]. apply Ht in Hf as [Hf|(g & Hg & E)].
      * exfalso. apply (Hp _ Hf). by exists f.
      * apply app_inv_head in E as ->. apply elem_of_list_lookup in Hg as [b Hb].
        destruct (Forall2_lookup_r _ _ _ _ _ HF Hb) as (i & Hi & x & Hx & Hxf). exists i, x. split_and!; [done|done|].
        apply Hls. by eapply elem_of_list_lookup_2.
    + intros Hn. exfalso. destruct Ha as [_ (i & _ & _ & Hi & _)]. apply Hls, elem_of_list_lookup in Hi as [b Hb].
      destruct (Forall2_lookup_l _ _ _ _ _ HF Hb) as (f & Hf & _). apply (Hn (s2l "candidate-" ++ f)).
      * apply Ht. right. exists f. split; [by eapply elem_of_list_lookup_2|done].
      * by exists f.
  - split; try done. intros f Hf. exfalso. apply (Hp _ Hf). by exists f.
Qed.
Lemma tagged_fp j d p u g : tagged j d p u → has_fp u g ↔ has_fp p g.
Proof.
  intros H. unfold has_fp. split; intros [Hg Ht]; (split; [done|]); apply (tg_tags _ _ _ _ H); try done;
    intros Hc; by apply (candidate_not_fp g).
Qed.
Lemma tagged_match j d p u k : tagged j d p u → ∀ j', fp_match_at j' u k ↔ fp_match_at j' p k.
Proof.
  intros H j'. split; intros (x & Hx & g & Hg1 & Hg2); exists x; (split; [done|]); exists g; (split; [done|]);
    by apply (tagged_fp _ _ _ _ g H).
Qed.
Lemma tagged_soft j d p u k : tagged j d p u → ∀ j', soft_match_at j' d u k ↔ soft_match_at j' d p k.
Proof.
  intros H j'. unfold soft_match_at, soft_match, unknown_account. rewrite (tg_raw _ _ _ _ H).
  assert (has_tag u (s2l "unknown-account") ↔ has_tag p (s2l "unknown-account")) as Hu.
  { apply (tg_tags _ _ _ _ H). intros Hc. by apply candidate_not_unknown in Hc. }
  setoid_rewrite Hu. done.
Qed.

Section handed.
  Context (m : merger) (j : journal) (Hr : reachable m) (Hj : represents m j).
  Let Hwf : journal_wf j := reachable_wf m j Hr Hj.
  Context (ho : hash_order) (Hho : hash_order_ok ho) (tps : list transaction_postings) (m1 : merger)
    (un : list transaction_postings) (Hm : merge ho m tps = (m1, Ok un)).
  Context (h : list (hash_order * list transaction_postings)) (Hh : Forall (λ s, hash_order_ok s.1) h).
  Context (j2 : journal) (Hj2 : represents (after m1 h) j2).

  Lemma h_r1 : reachable m1.
  Proof using Hr Hho Hm. replace m1 with (merge ho m tps).1 by by rewrite Hm. by constructor. Qed.
  Lemma h_r2 : reachable (after m1 h).
  Proof using Hr Hho Hm Hh. apply after_reachable; [apply h_r1|done]. Qed.
  Lemma h_wf2 : journal_wf j2.
  Proof using Hr Hho Hm Hh Hj2. eapply reachable_wf; [apply h_r2|done]. Qed.

  (** Postings handed back gain no new fingerprint matches. *)
  Lemma h_matches orig p k : orig ∈ tps → left_out j orig = true → p ∈ tp_posts orig → unrelated h p →
    fp_match_at j2 p k → fp_match_at j p k.
  Proof using All.
    intros Ho El Hp Hu Hk. pose proof h_r1 as Hr1. destruct (reachable_represents _ Hr1) as (j1 & Hj1 & _).
    destruct (after_matches h m1 j1 j2 p k) as (y & Hy & g & Hg1 & Hg2); try done.
    destruct (step_fp m j ho tps j1 k y g) as [(x & Hx & Hg)|(tp & q & Htp & Eq & Hq & Hg)]; try done.
    { by rewrite Hm. }
    - exists x. split; [done|]. by exists g.
    - exfalso. destruct (merge_inv m j Hr Hj ho tps m1 un Hho Hm) as (Hv & _).
      apply elem_of_list_lookup in Ho as [a Ha]. apply elem_of_list_lookup in Hp as [b Hb].
      apply elem_of_list_lookup in Htp as [a' Ha']. apply elem_of_list_lookup in Hq as [b' Hb'].
      assert (tp_post_at : a = a' ∧ b = b').
      { eapply (same_place tps a b a' b' orig tp p q); try done; [apply (vs_distinct _ _ Hv)|by exists g]. }
      destruct tp_post_at as [-> _]. congruence.
  Qed.
  Lemma h_keeps i x : j_posts j !! i = Some x →
    ∃ x', j_posts j2 !! i = Some x' ∧ jp_trn x' = jp_trn x ∧ ∀ g, has_fp (jp_post x) g → has_fp (jp_post x') g.
  Proof using All.
    intros Hx. pose proof h_r1 as Hr1. destruct (reachable_represents _ Hr1) as (j1 & Hj1 & _).
    destruct (step_keeps m j ho tps j1 i x) as (x1 & Hx1 & Ht1 & Hf1); try done. { by rewrite Hm. }
    destruct (after_keeps h m1 j1 j2 i x1) as (x' & Hx' & Ht' & Hf'); try done.
    exists x'. split_and!; [done|congruence|auto].
  Qed.

  Lemma resolved_hits orig p u f r d i x : orig ∈ tps → left_out j orig = true → p ∈ tp_posts orig → unrelated h p →
    tagged j d p u → resolves f u r → j_posts j !! i = Some x → has_fp (jp_post x) f →
    (∀ k, ¬ fp_match_at j p k) → fp_hits j2 r = [i].
  Proof using All.
    intros Ho El Hp Hu Ht (R1 & R2 & R3 & R4 & R5) Hx Hf Hno. pose proof h_wf2 as Hwf2.
    destruct (h_keeps i x Hx) as (x2 & Hx2 & _ & Hf2).
    apply NoDup_single; [apply NoDup_positions|]. split.
    - apply elem_of_fp_hits. exists x2. split; [done|]. exists f. split; [by apply Hf2|].
      split; [apply Hf|]. apply R5. by left.
    - intros k (y & Hy & (g & Hg1 & Hg2))%elem_of_fp_hits. destruct Hg2 as [Hg Hgt].
      apply R5 in Hgt as [->|[Hgt Hc]].
      + apply (jw_distinct _ Hwf2 k i (jp_post y) (jp_post x2)).
        * by rewrite list_lookup_fmap, Hy.
        * by rewrite list_lookup_fmap, Hx2.
        * exists f. split; [done|]. by apply Hf2.
      + exfalso. apply (Hno k). apply (h_matches orig p k); try done. exists y. split; [done|]. exists g. split; [done|].
        apply (tagged_fp _ _ _ _ g Ht). done.
  Qed.
End handed.

Lemma unrelated_tagged j d p u h : tagged j d p u → unrelated h u → unrelated h p.
Proof.
  intros Ht Hu s q Hs Hq (g & Hg1 & Hg2). apply (Hu s q Hs Hq). exists g. split; [done|]. by apply (tagged_fp _ _ _ _ g Ht).
Qed.
Lemma no_cand_mergeable p : mergeable p → no_candidates p.
Proof. intros [_ H]. exact H. Qed.
Lemma origin_tagged m j ho tps m1 un tp b u : reachable m → represents m j → hash_order_ok ho →
  merge ho m tps = (m1, Ok un) → tp ∈ un → tp_posts tp !! b = Some u →
  ∃ orig p, orig ∈ tps ∧ left_out j orig = true ∧ tp_posts orig !! b = Some p ∧ mergeable p ∧ tagged j (tp_date tp) p u.
Proof.
  intros Hr Hj Hho Hm Htp Hu. destruct (handed_origin m j ho tps m1 un tp) as (a & orig & Ha & El & Eh & HF); try done.
  destruct (Forall2_lookup_r _ _ _ _ _ HF Hu) as (p & Hp & Hb).
  destruct (merge_inv m j Hr Hj ho tps m1 un Hho Hm) as (Hv & _).
  assert (mergeable p) as Hmg.
  { apply (vs_mergeable _ _ Hv). apply elem_of_list_bind. exists orig. split; by eapply elem_of_list_lookup_2. }
  exists orig, p. split_and!; [by eapply elem_of_list_lookup_2|done|done|done|].
  assert (tp_date tp = tp_date orig) as -> by (unfold tp_date; by rewrite Eh).
  apply handed_tagged; [by apply no_cand_mergeable|done].
Qed.

Lemma resolved_choice m j ho tps m1 un h j2 tp u f r :
  reachable m → represents m j → hash_order_ok ho → merge ho m tps = (m1, Ok un) →
  tp ∈ un → u ∈ tp_posts tp → resolves f u r →
  Forall (λ s, hash_order_ok s.1) h → unrelated h u → represents (after m1 h) j2 →
  ∃ i x, j_posts j !! i = Some x ∧ has_fp (jp_post x) f ∧ soft_match_at j (tp_date tp) u i ∧
    selects j2 (tp_date tp) r i.
Proof.
  intros Hr Hj Hho Hm Htp [b Hb]%elem_of_list_lookup Hres Hh Hu Hj2.
  destruct (origin_tagged m j ho tps m1 un tp b u) as (orig & p & Ho & El & Hp & Hmg & Ht); try done.
  pose proof Hres as (_ & _ & _ & Hc & _).
  destruct (tg_cand _ _ _ _ Ht f Hc) as (Ha & i & x & Hx & Hf & Hs).
  exists i, x. split_and!; [done|done|by apply (tagged_soft _ _ _ _ i Ht)|].
  apply selects_spec. unfold lookup_posting.
  rewrite (resolved_hits m j Hr Hj ho Hho tps m1 un Hm h Hh j2 Hj2 orig p u f r (tp_date tp) i x); try done.
  - by eapply elem_of_list_lookup_2.
  - by eapply unrelated_tagged.
  - apply Ha.
Qed.

Lemma has_all_self p : has_all p p.
Proof. split; auto. by left. Qed.
Lemma has_all_merged x p : has_all (merge_posting x p) p.
Proof.
  destruct (absorbed_merge x p) as [H1 H2 H3 H4 H5]. split; [done|done| |..].
  - apply merge_posting_contains.
  - rewrite merge_posting_status. destruct (p_status (pi_raw x)) as [[]|], (p_status (pi_raw p)) as [[]|]; simpl;
      unfold status_le; auto.
  - done.
  - done.
Qed.
Lemma has_all_sub x r p : pi_raw p = pi_raw r → lines (pi_comment p) = lines (pi_comment r) →
  value_tags (pi_comment p) = value_tags (pi_comment r) → (∀ t, has_tag p t → has_tag r t) →
  (unknown_account r → unknown_account p) → has_all x r → has_all x p.
Proof.
  intros E1 E2 E3 Ht Hu [H1 H2 H3 H4 H5 H6]. split.
  - intros t Hp Hne. apply H1; auto.
  - by rewrite E2.
  - by rewrite E3.
  - by rewrite E1.
  - by rewrite E1.
  - auto.
Qed.

Section resolved.
  Context (m : merger) (j : journal) (Hr : reachable m) (Hj : represents m j).
  Context (ho : hash_order) (Hho : hash_order_ok ho) (tps : list transaction_postings) (m1 : merger)
    (un : list transaction_postings) (Hm : merge ho m tps = (m1, Ok un)).
  Context (h : list (hash_order * list transaction_postings)) (Hh : Forall (λ s, hash_order_ok s.1) h).
  Context (j2 : journal) (Hj2 : represents (after m1 h) j2).
  Context (tp tr : transaction_postings) (Htp : tp ∈ un) (Hne : tp_posts tp ≠ []) (Hres : resolution tp tr).
  Context (Hun : ∀ u, u ∈ tp_posts tp → unrelated h u).
  Context (Hamb : ∀ u, u ∈ tp_posts tp → no_candidates u → ¬ ambiguous j2 (tp_date tp) u).
  Context (Hone : ∀ b b' r r' i i' x x', tp_posts tr !! b = Some r → tp_posts tr !! b' = Some r' →
    selects j2 (tp_date tp) r i → selects j2 (tp_date tp) r' i' →
    j_posts j2 !! i = Some x → j_posts j2 !! i' = Some x' → jp_trn x = jp_trn x' ∧ (i = i' → b = b')).
  Local Notation d := (tp_date tp).

  Lemma r_date : tp_date tr = tp_date tp.
  Proof using Hres. unfold tp_date. by rewrite (proj1 Hres). Qed.
  (** Each edited posting, the posting handed back and the original. *)
  Lemma r_cases b r : tp_posts tr !! b = Some r → ∃ u orig p, tp_posts tp !! b = Some u ∧
    orig ∈ tps ∧ left_out j orig = true ∧ tp_posts orig !! b = Some p ∧ mergeable p ∧ tagged j d p u ∧
    ((∃ f i, resolves f u r ∧ fp_hits j2 r = [i]) ∨ (no_candidates u ∧ r = u ∧ u = p)).
  Proof using All.
    intros Hb. destruct Hres as [_ HF]. destruct (Forall2_lookup_r _ _ _ _ _ HF Hb) as (u & Hu & Hc).
    destruct (origin_tagged m j ho tps m1 un tp b u) as (orig & p & Ho & El & Hp & Hmg & Ht); try done.
    exists u, orig, p. split_and!; try done. destruct Hc as [[f Hf]|[Hn ->]].
    - left. exists f. pose proof Hf as (_ & _ & _ & Hc & _).
      destruct (tg_cand _ _ _ _ Ht f Hc) as (Ha & i & x & Hx & Hxf & Hs). exists i. split; [done|].
      apply (resolved_hits m j Hr Hj ho Hho tps m1 un Hm h Hh j2 Hj2 orig p u f r d i x); try done.
      + by eapply elem_of_list_lookup_2.
      + eapply unrelated_tagged; [done|]. apply Hun. by eapply elem_of_list_lookup_2.
      + apply Ha.
    - right. split_and!; [done|done|]. by apply (tg_amb _ _ _ _ Ht).
  Qed.
  Lemma r_le1 b r : tp_posts tr !! b = Some r → length (fp_hits j2 r) ≤ 1.
  Proof using All.
    intros Hb. destruct (r_cases b r Hb) as (u & orig & p & Hu & Ho & El & Hp & Hmg & Ht & [(f & i & _ & ->)|(Hn & -> & ->)]);
      [done|].
    destruct (le_lt_dec (length (fp_hits j2 p)) 1) as [?|Hlt]; [done|exfalso].
    apply conflicting_spec in Hlt as (i & k & Hik & Hi & Hk).
    assert (∀ k, fp_match_at j2 p k → fp_match_at j p k) as Hback.
    { intros c. eapply (h_matches m j Hr Hj ho Hho tps m1 un Hm h Hh j2 Hj2 orig); try done.
      - by eapply elem_of_list_lookup_2.
      - apply Hun. by eapply elem_of_list_lookup_2. }
    destruct (proj1 (merge_ok_iff m j Hr Hj ho tps Hho)) as [_ _ Hnc _ _]; [eauto|].
    apply (Hnc p).
    - apply elem_of_list_bind. exists orig. split; [by eapply elem_of_list_lookup_2|done].
    - exists i, k. auto.
  Qed.
  Lemma r_selects b r i : tp_posts tr !! b = Some r → fp_match_at j2 r i → selects j2 d r i.
  Proof using All.
    intros Hb Hi%fp_match_hits. apply selects_spec. unfold lookup_posting. pose proof (r_le1 b r Hb) as Hl.
    destruct (fp_hits j2 r) as [|k [|k' l]]; [by apply elem_of_nil in Hi| |simpl in Hl; lia].
    by apply elem_of_list_singleton in Hi as ->.
  Qed.
  Lemma r_tags b r u p t : tp_posts tr !! b = Some r → tp_posts tp !! b = Some u → tagged j d p u → mergeable p →
    has_tag p t → has_tag r t.
  Proof using All.
    intros Hb Hu Ht Hmg Hp. destruct Hres as [_ HF]. pose proof (Forall2_lookup_lr _ _ _ _ _ _ HF Hu Hb) as Hc.
    assert (¬ candidate_tag t) as Hnc by by apply Hmg.
    assert (has_tag u t) as Hut by by apply (tg_tags _ _ _ _ Ht).
    destruct Hc as [(f & _ & _ & _ & _ & H)|[_ ->]]; [|done]. apply H. by right.
  Qed.
  (** A fingerprint of an edited posting is one of the original, or is held by the
      posting selected. *)
  Lemma r_fp b r g : tp_posts tr !! b = Some r → has_fp r g →
    (∃ orig p, orig ∈ tps ∧ left_out j orig = true ∧ tp_posts orig !! b = Some p ∧ has_fp p g ∧
       ∃ u, tp_posts tp !! b = Some u ∧ tagged j d p u) ∨
    (∃ i x, j_posts j2 !! i = Some x ∧ has_fp (jp_post x) g).
  Proof using All.
    intros Hb [Hg Hgt]. destruct Hres as [_ HF]. destruct (Forall2_lookup_r _ _ _ _ _ HF Hb) as (u & Hu & Hc).
    destruct (origin_tagged m j ho tps m1 un tp b u) as (orig & p & Ho & El & Hp & Hmg & Ht); try done.
    assert (has_tag u g → has_fp p g) as Hback by (intros; by apply (tagged_fp _ _ _ _ g Ht)).
    destruct Hc as [(f & _ & _ & _ & Hc & H)|[Hn ->]].
    - apply H in Hgt as [->|[Hgt _]].
      + right. destruct (tg_cand _ _ _ _ Ht f Hc) as (Ha & i & x & Hx & Hxf & Hs).
        destruct (h_keeps m j Hr Hj ho Hho tps m1 un Hm h Hh j2 Hj2 i x Hx) as (x2 & Hx2 & _ & Hf2).
        exists i, x2. auto.
      + left. exists orig, p. split_and!; try done; [auto|eauto].
    - left. exists orig, p. split_and!; try done; [auto|eauto].
  Qed.
  Lemma r_acceptable : acceptable j2 [tr].
  Proof using All.
    destruct (proj1 (merge_ok_iff m j Hr Hj ho tps Hho)) as [Hmg Hd _ _ _]; [eauto|].
    assert (all_posts [tr] = tp_posts tr) as Eap by (unfold all_posts; simpl; by rewrite app_nil_r).
    split.
    - rewrite Eap. intros r [b Hb]%elem_of_list_lookup.
      destruct (r_cases b r Hb) as (u & orig & p & Hu & Ho & El & Hp & Hmgp & Ht & Hc).
      split.
      + pose proof Hmgp as [(f & Hf & Hft) _]. exists f. split; [done|]. by apply (r_tags b r u p f).
      + intros t Htt. destruct Hc as [(f & i & (_ & _ & _ & Hcf & H) & _)|(Hn & -> & _)]; [|by apply Hn].
        apply H in Htt as [->|[_ ?]]; [|done]. intros Hcand. apply (candidate_not_fp _ Hcand).
        destruct (tg_cand _ _ _ _ Ht f Hcf) as (_ & k & x & _ & [Hf _] & _). done.
    - rewrite Eap. intros b b' r r' Hb Hb' (g & Hg & Hg').
      assert (∀ c c' s s', tp_posts tr !! c = Some s → tp_posts tr !! c' = Some s' → has_fp s g → has_fp s' g →
        (∃ i x, j_posts j2 !! i = Some x ∧ has_fp (jp_post x) g) → c = c') as Hex.
      { intros c c' s s' Hc Hc' Hs Hs' (i & x & Hx & Hxg).
        assert (fp_match_at j2 s i) as M by (exists x; split; [done|]; by exists g).
        assert (fp_match_at j2 s' i) as M' by (exists x; split; [done|]; by exists g).
        by apply (Hone c c' s s' i i x x Hc Hc' (r_selects c s i Hc M) (r_selects c' s' i Hc' M') Hx Hx). }
      destruct (r_fp b r g Hb Hg) as [(orig & p & Ho & El & Hp & Hpg & u & Hu & Ht)|?]; [|by eapply Hex].
      destruct (r_fp b' r' g Hb' Hg') as [(orig' & p' & Ho' & El' & Hp' & Hpg' & u' & Hu' & Ht')|?]; [|by eapply Hex].
      apply elem_of_list_lookup in Ho as [a Ha]. apply elem_of_list_lookup in Ho' as [a' Ha'].
      by destruct (same_place tps a b a' b' orig orig' p p') as [_ ->]; try done; exists g.
    - rewrite Eap. intros r [b Hb]%elem_of_list_lookup Hc%conflicting_spec. pose proof (r_le1 b r Hb). lia.
    - intros tp' p q i k x y ->%elem_of_list_singleton _ [b Hb]%elem_of_list_lookup [b' Hb']%elem_of_list_lookup Hi Hk Hx Hy.
      rewrite r_date in Hi, Hk. by eapply (Hone b b').
    - intros a b a' b' t t' p p' i Ha Hb Ha' Hb' _ _ Hi Hi'.
      apply list_lookup_singleton_Some in Ha as [-> <-], Ha' as [-> <-]. split; [done|].
      rewrite r_date in Hi, Hi'.
      assert (∃ x, j_posts j2 !! i = Some x) as [x Hx].
      { destruct Hi as [[(x & ? & _) _]|[_ [(x & ? & _) _]]]; eauto. }
      by apply (Hone b b' p p' i i x x).
  Qed.
  Lemma r_kept : left_out j2 tr = false.
  Proof using All.
    apply to_merge_spec. destruct Hres as [_ HF]. split.
    - intros E. rewrite E in HF. by apply Forall2_nil_inv_r in HF.
    - intros r [b Hb]%elem_of_list_lookup Ha.
      destruct (r_cases b r Hb) as (u & orig & p & Hu & Ho & El & Hp & Hmg & Ht & [(f & i & _ & E)|(Hn & -> & _)]).
      + apply ambiguous_is in Ha. unfold lookup_posting in Ha. by rewrite E in Ha.
      + rewrite r_date in Ha. apply (Hamb u); [by eapply elem_of_list_lookup_2|done|done].
  Qed.

  Lemma resolved_merges ho' : hash_order_ok ho' →
    ∃ m3 j3, merge ho' (after m1 h) [tr] = (m3, Ok []) ∧ represents m3 j3 ∧
      (∀ b u r f, tp_posts tp !! b = Some u → tp_posts tr !! b = Some r → resolves f u r →
         ∃ i x, j_posts j2 !! i = Some x ∧ has_fp (jp_post x) f ∧
           j_posts j3 !! i = Some (JP (jp_trn x) (jp_date x) (merge_posting (jp_post x) r))) ∧
      (∀ orig ho'', orig ∈ tps → equal_but_candidates orig tp → hash_order_ok ho'' →
         merge ho'' m3 [orig] = (m3, Ok [])).
  Proof using All.
    intros Hho'. pose proof (h_r2 m Hr ho Hho tps m1 un Hm h Hh) as Hr2. pose proof (reachable_wf _ _ Hr2 Hj2) as Hwf2.
    destruct (proj2 (merge_ok_iff _ j2 Hr2 Hj2 ho' [tr] Hho') r_acceptable) as (m3 & un3 & Hm3).
    destruct (merge_inv _ j2 Hr2 Hj2 ho' [tr] m3 un3 Hho' Hm3) as (Hv3 & Hwf3 & Hj3 & Hun3).
    rewrite (filter_none _ [tr]) in Hun3 by (intros t ->%elem_of_list_singleton; rewrite r_kept; done).
    apply Forall2_nil_inv_l in Hun3 as ->. set (j3 := spec_merge j2 [tr]) in *.
    exists m3, j3.
    assert (reachable m3) as Hr3 by (replace m3 with (merge ho' (after m1 h) [tr]).1 by (by rewrite Hm3); by constructor).
    destruct (the_places j2 [tr] !! 0) as [[t ls]|] eqn:Epl; [|done].
    destruct (place_of j2 [tr] Hwf2 Hv3 0 tr t ls eq_refl r_kept Epl) as [Hlen Hpl].
    split_and!; [done|done|..].
    - intros b u r f Hu Hb Hf.
      destruct (resolved_choice m j ho tps m1 un h j2 tp u f r) as (i & x & Hx & Hxf & _ & Hsel); try done.
      { by eapply elem_of_list_lookup_2. }
      { apply Hun. by eapply elem_of_list_lookup_2. }
      destruct (h_keeps m j Hr Hj ho Hho tps m1 un Hm h Hh j2 Hj2 i x Hx) as (x2 & Hx2 & _ & Hf2).
      exists i, x2. split_and!; [done|by apply Hf2|].
      assert (b < length ls) as Hlt by (rewrite Hlen; by eapply lookup_lt_Some).
      apply lookup_lt_is_Some in Hlt as [k Hk]. destruct (Hpl b r k Hb Hk) as [[(y & Hy & Ev & Ht & _ & Hn)|(_ & Ev & _)]];
        rewrite r_date in Ev; apply selects_spec in Hsel; [|congruence].
      assert (k = i) as -> by congruence. assert (y = x2) as -> by congruence. by rewrite Ht.
    - intros orig ho'' Ho [Eh HF] Hho''.
      apply (contained_merge m3 j3 Hr3 Hj3 [orig] (λ _, t) (λ _ b, default 0 (ls !! b))).
      + intros ? ->%elem_of_list_singleton E. rewrite E in HF. by apply Forall2_nil_inv_l in HF.
      + destruct (proj1 (merge_ok_iff m j Hr Hj ho tps Hho)) as [Hmg _ _ _ _]; [eauto|].
        intros p (o & Hp & ->%elem_of_list_singleton)%elem_of_list_bind. apply Hmg, elem_of_list_bind. eauto.
      + intros a b o p Ha Hp. apply list_lookup_singleton_Some in Ha as [-> <-].
        destruct (Forall2_lookup_l _ _ _ _ _ HF Hp) as (u & Hu & E1 & E2 & E3 & Ht).
        destruct Hres as [_ HR]. destruct (Forall2_lookup_l _ _ _ _ _ HR Hu) as (r & Hb & Hc).
        assert (b < length ls) as Hlt by (rewrite Hlen; by eapply lookup_lt_Some).
        apply lookup_lt_is_Some in Hlt as [k Hk]. rewrite Hk. simpl.
        assert (mergeable p) as Hmgp.
        { destruct (proj1 (merge_ok_iff m j Hr Hj ho tps Hho)) as [Hmg _ _ _ _]; [eauto|].
          apply Hmg, elem_of_list_bind. exists orig. split; [by eapply elem_of_list_lookup_2|done]. }
        assert (∀ x, has_all x r → has_all x p) as Hsub.
        { intros x. apply has_all_sub.
          - destruct Hc as [(f & E & _)|[_ ->]]; congruence.
          - destruct Hc as [(f & _ & E & _)|[_ ->]]; congruence.
          - destruct Hc as [(f & _ & _ & E & _)|[_ ->]]; congruence.
          - intros s Hs. assert (¬ candidate_tag s) as Hns by by apply Hmgp.
            assert (has_tag u s) as Hus by by apply Ht.
            destruct Hc as [(f & _ & _ & _ & _ & H)|[_ ->]]; [|done]. apply H. by right.
          - intros Hu'. apply Ht; [intros Hx; by apply candidate_not_unknown in Hx|].
            destruct Hc as [(f & _ & _ & _ & Hcf & H)|[_ ->]]; [|done]. apply H in Hu' as [E|[? _]]; [|done].
            exfalso. destruct (r_cases b r Hb) as (u' & o' & p' & Hu'' & _ & _ & _ & _ & Htg & _). simplify_eq.
            destruct (tg_cand _ _ _ _ Htg _ Hcf) as (_ & k' & x' & _ & [Hf _] & _). by apply unknown_not_fp in Hf. }
        destruct (Hpl b r k Hb Hk) as [[(y & Hy & Ev & Hyt & _ & Hn)|(_ & Ev & Hn)]].
        * eexists. split_and!; [exact Hn|done|]. simpl. apply Hsub, has_all_merged.
        * eexists. split_and!; [exact Hn|done|]. simpl. apply Hsub, has_all_self.
      + assert (length (tp_posts orig) = length (tp_posts tr)) as El.
        { destruct Hres as [_ HR]. rewrite (Forall2_length _ _ _ HF). by apply Forall2_length in HR. }
        intros a b a' b' o o' Ha Hb Ha' Hb' E. apply list_lookup_singleton_Some in Ha as [-> <-], Ha' as [-> <-].
        split; [done|]. rewrite El, <- Hlen in Hb, Hb'.
        apply lookup_lt_is_Some in Hb as [k Hk]. apply lookup_lt_is_Some in Hb' as [k' Hk'].
        rewrite Hk, Hk' in E. simpl in E. subst k'.
        pose proof (NoDup_places j2 [tr] Hwf2 Hv3) as Hnd.
        assert (NoDup ls) as Hndl by (by apply (NoDup_bind_elem snd (the_places j2 [tr]) 0 (t, ls))).
        by eapply NoDup_lookup.
      + done.
  Qed.
End resolved.

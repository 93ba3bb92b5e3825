(** The pending phase of [merge] computes the verdicts of MergeSpec.v. *)
From Verif Require Import Base Types CommentModel MergeModel SpecBase BaseProofs MergeSpec MergeProofs.
From Coq Require Import Lia.

(** ** Match sets *)
Lemma ms_insert_spec {A} `{EqDecision A} (m : matchset A) v :
  (∀ l, m = MMany l → (2 ≤ length l)%nat) →
  ms_list (ms_insert m v) = (if decide (v ∈ ms_list m) then ms_list m else ms_list m ++ [v]) ∧
  (∀ l, ms_insert m v = MMany l → (2 ≤ length l)%nat).
Proof.
  intros H. destruct m as [|e|vs]; cbn [ms_insert ms_list].
  - split; [|done]. rewrite decide_False; [done|]. by intros ?%elem_of_nil.
  - case_decide as E; cbn [ms_list].
    + subst. rewrite decide_True by left. split; [done|]. intros l [=].
    + rewrite decide_False. { split; [done|]. intros l [= <-]. simpl. lia. }
      intros ?%elem_of_list_singleton. congruence.
  - case_decide as E; cbn [ms_list]; split; try done.
    intros l [= <-]. rewrite app_length. specialize (H vs eq_refl). lia.
Qed.

(** Distinct values of a list in order of first occurrence. *)
Fixpoint dedup_from {A} `{EqDecision A} (acc l : list A) : list A :=
  match l with
  | [] => acc
  | x :: l => dedup_from (if decide (x ∈ acc) then acc else acc ++ [x]) l
  end.
Lemma ms_collect_from {A} `{EqDecision A} (l : list A) m :
  (∀ k, m = MMany k → (2 ≤ length k)%nat) →
  ms_list (foldl ms_insert m l) = dedup_from (ms_list m) l ∧
  (∀ k, foldl ms_insert m l = MMany k → (2 ≤ length k)%nat).
Proof.
  revert m; induction l as [|x l IH]; intros m Hm; cbn [foldl dedup_from]; [done|].
  destruct (ms_insert_spec m x Hm) as [E Hm']. destruct (IH _ Hm') as [E2 Hk].
  split; [|done]. by rewrite E2, E.
Qed.
Lemma ms_collect_list {A} `{EqDecision A} (l : list A) :
  ms_list (ms_collect l) = dedup_from [] l.
Proof. apply (ms_collect_from l MZero). done. Qed.
Lemma ms_collect_cases {A} `{EqDecision A} (l : list A) :
  match ms_collect l with
  | MZero => dedup_from [] l = []
  | MOne x => dedup_from [] l = [x]
  | MMany k => dedup_from [] l = k ∧ (2 ≤ length k)%nat
  end.
Proof.
  pose proof (ms_collect_list l) as E.
  destruct (ms_collect_from l MZero) as [_ Hk]; [done|].
  fold (ms_collect l) in Hk. destruct (ms_collect l); simpl in E; try done.
  split; [done|]. by apply Hk.
Qed.

Lemma elem_of_dedup_from {A} `{EqDecision A} (l acc : list A) x :
  x ∈ dedup_from acc l ↔ x ∈ acc ∨ x ∈ l.
Proof.
  revert acc; induction l as [|y l IH]; intros acc; simpl.
  - split; [by left|intros [?|?%elem_of_nil]; done].
  - rewrite IH. case_decide; set_unfold; naive_solver.
Qed.
Lemma NoDup_dedup_from {A} `{EqDecision A} (l acc : list A) :
  NoDup acc → NoDup (dedup_from acc l).
Proof.
  revert acc; induction l as [|y l IH]; intros acc Hn; simpl; [done|].
  apply IH. case_decide as E; [done|]. apply NoDup_app. split_and!; [done| |apply NoDup_singleton].
  intros x Hx ->%elem_of_list_singleton. done.
Qed.
Lemma dedup_from_NoDup {A} `{EqDecision A} (l acc : list A) :
  NoDup (acc ++ l) → dedup_from acc l = acc ++ l.
Proof.
  revert acc; induction l as [|y l IH]; intros acc Hn; simpl; [by rewrite app_nil_r|].
  rewrite decide_False.
  - rewrite IH; rewrite <- app_assoc; done.
  - apply NoDup_app in Hn as (_ & Hn & _). intros Hy. apply (Hn y Hy). left.
Qed.
Lemma dedup_perm {A} `{EqDecision A} (l k : list A) :
  NoDup k → (∀ x, x ∈ l ↔ x ∈ k) → dedup_from [] l ≡ₚ k.
Proof.
  intros Hk H. apply NoDup_Permutation; [apply NoDup_dedup_from; constructor|done|].
  intros x. rewrite elem_of_dedup_from, H. split; [intros [?%elem_of_nil|]; done|by right].
Qed.

Section pending.
  Context (ho : hash_order) (Hho : hash_order_ok ho).
  Context (m : merger) (j : journal) (Hrep : represents m j) (Hwf : journal_wf j).

  Lemma rep_lookup i : post_arena (m_posts m) !! i =
    (λ x, PostHolder (jp_trn x) (jp_post x)) <$> j_posts j !! i.
  Proof using Hrep. by rewrite (rep_posts _ _ Hrep), list_lookup_fmap. Qed.

  Lemma elem_of_fp_hits p i :
    i ∈ fp_hits j p ↔ ∃ x, j_posts j !! i = Some x ∧ share_fp (jp_post x) p.
  Proof. unfold fp_hits. rewrite elem_of_positions. by setoid_rewrite share_fpb_spec. Qed.
  Lemma elem_of_soft_hits d p i :
    i ∈ soft_hits j d p ↔ ∃ x, j_posts j !! i = Some x ∧ jp_date x = d ∧ matches (jp_post x) p = true.
  Proof.
    unfold soft_hits. rewrite elem_of_positions.
    split; intros (x & Hx & H); exists x; (split; [done|]).
    - apply andb_true_iff in H as [H%bool_decide_eq_true ?]. done.
    - destruct H as [H ?]. apply andb_true_iff. by rewrite bool_decide_eq_true.
  Qed.

  Lemma fp_lookup_perm d p :
    dedup_from [] (omap (λ fp, post_by_fingerprint (m_posts m) !! fp)
        (fingerprints_from_comment ho (pi_comment (in_posting (Input d p))))) ≡ₚ fp_hits j p.
  Proof using Hho Hrep.
    apply dedup_perm; [apply NoDup_positions|]. intros i.
    rewrite elem_of_list_omap, elem_of_fp_hits. simpl. split.
    - intros (f & Hf & E). apply (rep_by_fp _ _ Hrep) in E as (x & Hx & Hxf).
      exists x. split; [done|]. exists f. split; [done|].
      by apply (elem_of_fingerprints ho p f Hho).
    - intros (x & Hx & f & Hxf & Hpf). exists f.
      split; [by apply (elem_of_fingerprints ho p f Hho)|].
      apply (rep_by_fp _ _ Hrep). eauto.
  Qed.

  Lemma soft_filter_spec d p idxs :
    (∀ i, i ∈ idxs → (i < length (j_posts j))%nat) →
    soft_filter (m_posts m) (Input d p) idxs =
    Ok (filter (λ i, is_true (match j_posts j !! i with
                              | Some x => matches (jp_post x) p | None => false end)) idxs).
  Proof using Hrep.
    induction idxs as [|i idxs IH]; intros H; cbn [soft_filter]; [done|].
    destruct (lookup_lt_is_Some_2 (j_posts j) i) as [x Hx]; [apply H; left|].
    unfold posts_get. rewrite rep_lookup, Hx. simpl. rewrite IH by (intros; apply H; by right).
    simpl. destruct (matches (jp_post x) p) eqn:E.
    - rewrite filter_cons_True; [done|]. by rewrite Hx, E.
    - rewrite filter_cons_False; [done|]. by rewrite Hx, E.
  Qed.

  Lemma soft_lookup d p :
    soft_filter (m_posts m) (Input d p) (default [] (posts_by_date (m_posts m) !! d)) =
    Ok (soft_hits j d p).
  Proof using Hrep.
    assert (default [] (posts_by_date (m_posts m) !! d) =
            positions (λ x, bool_decide (jp_date x = d)) (j_posts j)) as ->.
    { rewrite (rep_by_date _ _ Hrep). by destruct (positions _ _). }
    rewrite soft_filter_spec by apply positions_lt. f_equal. unfold soft_hits.
    apply (positions_filter (λ x, bool_decide (jp_date x = d)) (λ x, matches (jp_post x) p)).
  Qed.

  Lemma primary_spec x : x ∈ j_posts j →
    ∃ f, primary_fingerprint ho (pi_comment (jp_post x)) = Ok f ∧ has_fp (jp_post x) f.
  Proof using Hho Hwf.
    intros Hx. destruct (jw_mergeable _ Hwf x Hx) as [(f & Hf) _].
    apply (elem_of_fingerprints ho _ f Hho) in Hf.
    unfold primary_fingerprint. destruct (fingerprints_from_comment _ _) as [|g l] eqn:E.
    - by apply elem_of_nil in Hf.
    - exists g. split; [done|]. apply (elem_of_fingerprints ho _ g Hho). rewrite E. left.
  Qed.

  Lemma add_candidates_spec d idxs : (∀ i, i ∈ idxs → (i < length (j_posts j))%nat) →
    ∀ p, ∃ p', add_candidates ho (m_posts m) (Input d p) idxs = Ok (Input d p') ∧
               candidates_added j idxs p p'.
  Proof using Hho Hrep Hwf.
    induction idxs as [|i idxs IH]; intros H p; cbn [add_candidates].
    - exists p. split; [done|]. repeat split; try done. exists []. split; [constructor|set_solver].
    - destruct (lookup_lt_is_Some_2 (j_posts j) i) as [x Hx]; [apply H; left|].
      unfold posts_get. rewrite rep_lookup, Hx. simpl.
      destruct (primary_spec x) as (f & -> & Hf); [by eapply elem_of_list_lookup_2|]. simpl.
      destruct (IH (λ i Hi, H i (elem_of_list_further _ _ _ Hi))
                  (in_posting (input_add_tag (Input d p) (CANDIDATE_FP_PREFIX ++ f))))
        as (p' & Hp' & Hraw & Hl & Hv & fs & Hfs & Ht).
      exists p'. split; [done|]. simpl in *. repeat split; try done.
      exists (f :: fs). split; [constructor; eauto|]. rewrite Ht, fmap_cons.
      rewrite list_to_set_cons. set_solver.
  Qed.

  Definition decided (d : date) (p : posting_internal) (r : input * option post_action) : Prop :=
    match lookup_posting j d p with
    | VMerge i => r = (Input d p, Some (PMergeInto i))
    | VNew => r = (Input d p, Some PNew)
    | VAmbiguous l => ∃ p', r = (Input d p', None) ∧ candidates_added j l p p'
    | VConflict => False
    end.

  Lemma determine_spec d p :
    ((length (fp_hits j p) ≤ 1)%nat ∧
      ∃ r, determine_posting_action ho m (Input d p) = Ok r ∧ decided d p r) ∨
    (¬ (length (fp_hits j p) ≤ 1)%nat ∧ determine_posting_action ho m (Input d p) = Err EManyFingerprint).
  Proof using Hho Hrep Hwf.
    unfold determine_posting_action, find_matching_postings, find_posting_by_fingerprints, decided,
      lookup_posting.
    pose proof (fp_lookup_perm d p) as Hperm.
    pose proof (ms_collect_cases (omap (λ fp, post_by_fingerprint (m_posts m) !! fp)
        (fingerprints_from_comment ho (pi_comment (in_posting (Input d p)))))) as Hc.
    destruct (ms_collect _) as [|x|xs].
    - rewrite Hc in Hperm. apply Permutation_nil_l in Hperm as <-. left. split; [simpl; lia|].
      change (in_date (Input d p)) with d. rewrite soft_lookup. cbn [rbind].
      pose proof (ms_collect_cases (soft_hits j d p)) as Hs.
      rewrite dedup_from_NoDup in Hs by apply NoDup_positions. simpl in Hs.
      destruct (ms_collect (soft_hits j d p)) as [|x|xs]; cbn [rbind].
      + rewrite Hs. eauto.
      + rewrite Hs. eauto.
      + destruct Hs as [Hs Hlen]. rewrite Hs.
        destruct (add_candidates_spec d xs) with (p := p) as (p' & -> & Hadd).
        { intros i Hi. rewrite <- Hs in Hi. by eapply positions_lt. }
        cbn [rbind]. destruct xs as [|a [|b l]]; [simpl in Hlen; lia..|]. eauto.
    - rewrite Hc in Hperm. apply Permutation_singleton_l in Hperm. rewrite <- Hperm.
      left. split; [simpl; lia|]. cbn [rbind]. eauto.
    - destruct Hc as [Hc Hlen]. rewrite Hc in Hperm. right.
      rewrite (Permutation_length Hperm) in Hlen. split; [lia|]. cbn [rbind].
      assert (∃ hs, rmapM (posts_get (m_posts m)) xs = Ok hs) as [hs ->]; [|done].
      assert (∀ i, i ∈ xs → ∃ h, posts_get (m_posts m) i = Ok h) as Hget.
      { intros i Hi. rewrite Hperm in Hi. apply elem_of_fp_hits in Hi as (y & Hy & _).
        unfold posts_get. rewrite rep_lookup, Hy. simpl. eauto. }
      clear -Hget. induction xs as [|i xs IH]; simpl; [eauto|].
      destruct (Hget i) as [h ->]; [left|]. simpl.
      destruct IH as [hs ->]; [intros; apply Hget; by right|]. simpl. eauto.
  Qed.

  (** Fingerprints seen so far. *)
  Definition posts_fps (ps : list posting_internal) : gset str := ⋃ (fps_of <$> ps).
  Lemma posts_fps_cons p ps : posts_fps (p :: ps) = fps_of p ∪ posts_fps ps.
  Proof. done. Qed.
  Lemma posts_fps_app ps qs : posts_fps (ps ++ qs) = posts_fps ps ∪ posts_fps qs.
  Proof. unfold posts_fps. rewrite fmap_app, union_list_app_L. done. Qed.
  Lemma elem_of_posts_fps ps f : f ∈ posts_fps ps ↔ ∃ p, p ∈ ps ∧ has_fp p f.
  Proof.
    unfold posts_fps. rewrite elem_of_union_list. split.
    - intros (X & HX & Hf). apply elem_of_list_fmap in HX as (p & -> & Hp).
      exists p. split; [done|]. by apply elem_of_fps.
    - intros (p & Hp & Hf). exists (fps_of p). split; [|by apply elem_of_fps].
      apply elem_of_list_fmap. eauto.
  Qed.

  Lemma see_spec seen l : NoDup l →
    ((∀ f, f ∈ l → f ∉ seen) ∧ see_fingerprints seen l = Ok (list_to_set l ∪ seen)) ∨
    (¬ (∀ f, f ∈ l → f ∉ seen) ∧ see_fingerprints seen l = Err EDupFingerprint).
  Proof.
    revert seen; induction l as [|f l IH]; intros seen Hn; cbn [see_fingerprints].
    - left. split; [by intros f ?%elem_of_nil|]. f_equal. set_solver.
    - apply NoDup_cons in Hn as [Hf Hn]. case_decide as E.
      + right. split; [|done]. intros H. apply (H f); [left|done].
      + destruct (IH ({[f]} ∪ seen) Hn) as [[H1 H2]|[H1 H2]]; rewrite H2.
        * left. split.
          -- intros g [->|Hg]%elem_of_cons; [done|]. specialize (H1 g Hg). set_solver.
          -- f_equal. rewrite list_to_set_cons. set_solver.
        * right. split; [|done]. intros H. apply H1. intros g Hg.
          assert (g ≠ f) by congruence. specialize (H g). set_solver.
  Qed.

  Fixpoint seen_ok (seen : gset str) (ps : list posting_internal) : Prop :=
    match ps with
    | [] => True
    | p :: ps => mergeable p ∧ fps_of p ## seen ∧ (length (fp_hits j p) ≤ 1)%nat ∧
                 seen_ok (fps_of p ∪ seen) ps
    end.
  Lemma seen_ok_app seen ps qs :
    seen_ok seen (ps ++ qs) ↔ seen_ok seen ps ∧ seen_ok (posts_fps ps ∪ seen) qs.
  Proof.
    revert seen; induction ps as [|p ps IH]; intros seen; simpl.
    - replace (posts_fps [] ∪ seen) with seen by set_solver. naive_solver.
    - rewrite IH, posts_fps_cons.
      replace (fps_of p ∪ posts_fps ps ∪ seen) with (posts_fps ps ∪ (fps_of p ∪ seen)) by set_solver.
      naive_solver.
  Qed.

  Lemma process_posts_spec d ps : ∀ seen acc,
    (seen_ok seen ps ∧ ∃ rs, Forall2 (decided d) ps rs ∧
      process_posts ho m d seen acc ps =
      Ok (posts_fps ps ∪ seen, foldl (λ a r, acc_push a r.1 r.2) acc rs)) ∨
    (¬ seen_ok seen ps ∧ ∃ e, process_posts ho m d seen acc ps = Err e).
  Proof using Hho Hrep Hwf.
    induction ps as [|p ps IH]; intros seen acc; cbn [process_posts seen_ok].
    - left. split; [done|]. exists []. split; [constructor|]. simpl. repeat f_equal.
      unfold posts_fps. simpl. set_solver.
    - destruct (input_spec ho p d Hho) as [[Hm ->]|[Hm [e ->]]]; cbn [rbind]; [|right; naive_solver].
      destruct (see_spec seen (fingerprints_from_comment ho (pi_comment p))
                  (NoDup_fingerprints ho _ Hho)) as [[Hs Hsee]|[Hs Hsee]];
        change (in_posting (Input d p)) with p; rewrite Hsee; cbn [rbind].
      2:{ right. split; [|eauto]. intros (_ & Hd & _). apply Hs. intros f Hf.
          apply (elem_of_fingerprints ho _ f Hho) in Hf. apply elem_of_fps in Hf. set_solver. }
      assert (list_to_set (fingerprints_from_comment ho (pi_comment p)) = fps_of p) as Hfps.
      { apply set_eq. intros f. rewrite elem_of_list_to_set, (elem_of_fingerprints ho _ f Hho).
        by rewrite elem_of_fps. }
      destruct (determine_spec d p) as [[Hlen (r & -> & Hr)]|[Hlen ->]]; cbn [rbind].
      2:{ right. naive_solver. }
      rewrite Hfps. destruct r as [i a].
      destruct (IH (fps_of p ∪ seen) (acc_push acc i a)) as [(Hok & rs & Hrs & ->)|[Hok [e ->]]].
      + left. split; [split_and!; try done|].
        { intros f Hf. apply elem_of_fps in Hf. apply (Hs f).
          by apply (elem_of_fingerprints ho _ f Hho). }
        exists ((i, a) :: rs). split; [by constructor|].
        replace (posts_fps (p :: ps) ∪ seen) with (posts_fps ps ∪ (fps_of p ∪ seen))
          by (rewrite posts_fps_cons; set_solver).
        done.
      + right. naive_solver.
  Qed.

  (** The accumulated actions of one transaction. *)
  Definition act_of (d : date) (pv : posting_internal * verdict) : input * post_action :=
    (Input d pv.1, match pv.2 with VMerge i => PMergeInto i | _ => PNew end).

  Lemma acc_push_leave l rs :
    foldl (λ a r, acc_push a r.1 r.2) (MLeave l) rs = MLeave (l ++ rs.*1).
  Proof.
    revert l; induction rs as [|r rs IH]; intros l; simpl; [by rewrite app_nil_r|].
    rewrite IH, <- app_assoc. done.
  Qed.
  Lemma acc_push_actions d ps rs l : Forall2 (decided d) ps rs →
    foldl (λ a r, acc_push a r.1 r.2) (MActions l) rs =
    if existsb is_ambiguous (lookup_posting j d <$> ps) then MLeave (l.*1 ++ rs.*1)
    else MActions (l ++ (act_of d <$> zip ps (lookup_posting j d <$> ps))).
  Proof.
    intros H. revert l; induction H as [|p r ps rs Hd Hds IH]; intros l; csimpl.
    - by rewrite app_nil_r.
    - unfold decided in Hd. destruct (lookup_posting j d p) as [i| |am|] eqn:E; [| | |done].
      + subst r. simpl. rewrite IH. destruct (existsb _ _).
        * rewrite fmap_app, <- app_assoc. done.
        * rewrite <- app_assoc. done.
      + subst r. simpl. rewrite IH. destruct (existsb _ _).
        * rewrite fmap_app, <- app_assoc. done.
        * rewrite <- app_assoc. done.
      + destruct Hd as (p' & -> & _). simpl. rewrite acc_push_leave, <- app_assoc. done.
  Qed.

  Lemma dests_valid tp i : i ∈ dests j tp → (i < length (j_posts j))%nat.
  Proof.
    unfold dests. intros (v & Hv & E)%elem_of_list_omap. destruct v as [k| | |]; simplify_eq.
    unfold verdicts in Hv. apply elem_of_list_fmap in Hv as (p & E & _).
    unfold lookup_posting in E. destruct (fp_hits j p) as [|a [|b l]] eqn:Hh; [| |done].
    - destruct (soft_hits j _ p) as [|a [|b l]] eqn:Hs; simplify_eq.
      assert (a ∈ soft_hits j (tp_date tp) p) by (rewrite Hs; left). by eapply positions_lt.
    - simplify_eq. assert (a ∈ fp_hits j p) by (rewrite Hh; left). by eapply positions_lt.
  Qed.

  Definition dest_trns (tp : transaction_postings) : list nat :=
    dests j tp ≫= (λ i, option_list (jp_trn <$> j_posts j !! i)).
  Lemma elem_of_dest_trns tp t :
    t ∈ dest_trns tp ↔ ∃ i x, i ∈ dests j tp ∧ j_posts j !! i = Some x ∧ jp_trn x = t.
  Proof.
    unfold dest_trns. rewrite elem_of_list_bind. split.
    - intros (i & Ht & Hi). destruct (j_posts j !! i) as [x|] eqn:E; simpl in Ht.
      + apply elem_of_list_singleton in Ht. eauto 6.
      + by apply elem_of_nil in Ht.
    - intros (i & x & Hi & Hx & <-). exists i. rewrite Hx. simpl. split; [left|done].
  Qed.

  Lemma action_dests_spec tp d :
    action_dests (act_of d <$> zip (tp_posts tp) (verdicts j tp)) = dests j tp.
  Proof.
    unfold action_dests, dests, verdicts. generalize (tp_date tp). intros d'.
    induction (tp_posts tp) as [|p ps IH]; csimpl; [done|].
    destruct (lookup_posting j d' p); simpl; rewrite <- IH; done.
  Qed.

  Lemma find_dest_spec tp d :
    (∀ t t', t ∈ dest_trns tp → t' ∈ dest_trns tp → t = t') ∧
      find_existing_dest_trn m (act_of d <$> zip (tp_posts tp) (verdicts j tp)) = Ok (head (dest_trns tp))
    ∨ ¬ (∀ t t', t ∈ dest_trns tp → t' ∈ dest_trns tp → t = t') ∧
      find_existing_dest_trn m (act_of d <$> zip (tp_posts tp) (verdicts j tp)) = Err EManyTransactions.
  Proof using Hho Hrep Hwf.
    unfold find_existing_dest_trn. rewrite action_dests_spec.
    assert (rmapM (λ x, rmap ph_parent (posts_get (m_posts m) x)) (dests j tp) = Ok (dest_trns tp)) as ->.
    { unfold dest_trns. pose proof (dests_valid tp) as Hv.
      induction (dests j tp) as [|i l IH]; simpl; [done|].
      destruct (lookup_lt_is_Some_2 (j_posts j) i) as [x Hx]; [apply Hv; left|].
      unfold posts_get at 1. rewrite rep_lookup, Hx. simpl.
      rewrite IH by (intros; apply Hv; by right). done. }
    cbn [rbind].
    assert (elements (list_to_set (dest_trns tp) : gset nat) ≡ₚ remove_dups (dest_trns tp)) as HP.
    { apply NoDup_Permutation; [apply NoDup_elements|apply NoDup_remove_dups|].
      intros x. rewrite elem_of_elements, elem_of_list_to_set, elem_of_remove_dups. done. }
    destruct (elements (list_to_set (dest_trns tp) : gset nat)) as [|t [|t' ts]] eqn:E.
    - left. assert (dest_trns tp = []) as ->.
      { destruct (dest_trns tp) as [|a l]; [done|].
        assert (a ∈ remove_dups (a :: l)) as Ha by (apply elem_of_remove_dups; left).
        rewrite <- HP in Ha. by apply elem_of_nil in Ha. }
      split; [by intros ? ? ?%elem_of_nil|done].
    - left. assert (∀ x, x ∈ dest_trns tp ↔ x = t) as Hx.
      { intros x. rewrite <- elem_of_remove_dups, <- HP, elem_of_list_singleton. done. }
      split; [intros a b ->%Hx ->%Hx; done|]. f_equal.
      destruct (dest_trns tp) as [|a l] eqn:El.
      + assert (t ∈ []) as Ht by (by apply Hx). by apply elem_of_nil in Ht.
      + simpl. f_equal. symmetry. apply Hx. left.
    - right. assert (t ∈ dest_trns tp ∧ t' ∈ dest_trns tp ∧ t ≠ t') as (H1 & H2 & H3).
      { assert (∀ x, x ∈ t :: t' :: ts → x ∈ dest_trns tp) as Hx.
        { intros x Hx. rewrite HP in Hx. by apply elem_of_remove_dups. }
        split_and!; [apply Hx; left|apply Hx; right; left|].
        pose proof (NoDup_elements (list_to_set (dest_trns tp) : gset nat)) as Hn.
        rewrite E in Hn. apply NoDup_cons in Hn as [Hn _]. set_solver. }
      split; [naive_solver|].
      assert (∀ x, x ∈ t :: t' :: ts → ∃ h, trn_arena (m_trns m) !! x = Some h) as Hget.
      { intros x Hx. rewrite HP, elem_of_remove_dups in Hx.
        apply elem_of_dest_trns in Hx as (i & y & _ & Hy & <-).
        apply elem_of_list_lookup_2, (jw_parent _ Hwf), lookup_lt_is_Some_2 in Hy as [h Hh].
        rewrite (rep_trns _ _ Hrep), list_lookup_imap, Hh. simpl. eauto. }
      assert (∃ hs, rmapM (λ t, match trn_arena (m_trns m) !! t with Some h => Ok h | None => Panic end)
                 (t :: t' :: ts) = Ok hs) as [hs ->]; [|done].
      clear -Hget. induction (t :: t' :: ts) as [|i xs IH]; simpl; [eauto|].
      destruct (Hget i) as [h ->]; [left|]. simpl.
      destruct IH as [hs ->]; [intros; apply Hget; by right|]. simpl. eauto.
  Qed.

  (** The pending action of one input transaction. *)
  Definition action_for (tp : transaction_postings) (a : trn_action) : Prop :=
    if left_out j tp then ∃ tp', a = TLeave tp' ∧ returned_as j tp tp'
    else
      let acts := act_of (tp_date tp) <$> zip (tp_posts tp) (verdicts j tp) in
      a = match dest_trns tp with
          | t :: _ => TMergeInto (tp_trn tp) acts t
          | [] => TNew (tp_trn tp) acts
          end.

  Definition one_trn (tp : transaction_postings) : Prop :=
    left_out j tp = false → ∀ t t', t ∈ dest_trns tp → t' ∈ dest_trns tp → t = t'.

  Lemma returned_as_self tp : tp_posts tp = [] → returned_as j tp tp.
  Proof. intros E. split; [done|]. rewrite E. constructor. Qed.

  Lemma to_action_spec seen tp :
    (seen_ok seen (tp_posts tp) ∧ one_trn tp ∧ ∃ a, action_for tp a ∧
       to_transaction_merge_action ho m seen tp = Ok (posts_fps (tp_posts tp) ∪ seen, a)) ∨
    (¬ (seen_ok seen (tp_posts tp) ∧ one_trn tp) ∧
       ∃ e, to_transaction_merge_action ho m seen tp = Err e).
  Proof using Hho Hrep Hwf.
    unfold to_transaction_merge_action, action_for, one_trn.
    destruct (tp_posts tp) as [|p0 ps0] eqn:Eps.
    - left. split; [done|]. unfold left_out. rewrite Eps. split; [done|].
      exists (TLeave tp). split; [exists tp; split; [done|by apply returned_as_self]|].
      repeat f_equal. unfold posts_fps. simpl. set_solver.
    - rewrite <- Eps.
      change (t_date (ti_raw (tp_trn tp))) with (tp_date tp).
      destruct (process_posts_spec (tp_date tp) (tp_posts tp) seen (MActions []))
        as [(Hok & rs & Hrs & ->)|[Hok [e ->]]]; cbn [rbind].
      2:{ right. naive_solver. }
      rewrite (acc_push_actions (tp_date tp) (tp_posts tp) rs [] Hrs).
      assert (left_out j tp = existsb is_ambiguous (lookup_posting j (tp_date tp) <$> tp_posts tp)) as El.
      { unfold left_out, verdicts. by rewrite Eps. }
      rewrite <- El. destruct (left_out j tp) eqn:El2.
      + left. split; [done|]. split; [done|]. eexists. split; [|done].
        eexists. split; [done|]. split; [done|]. simpl.
        clear -Hrs. induction Hrs as [|p r ps rs Hr Hrs IH]; csimpl; [constructor|].
        constructor; [|done]. unfold decided in Hr.
        destruct (lookup_posting j (tp_date tp) p); simplify_eq; try done.
        destruct Hr as (p' & -> & Hc). done.
      + change (lookup_posting j (tp_date tp) <$> tp_posts tp) with (verdicts j tp). simpl app.
        destruct (find_dest_spec tp (tp_date tp)) as [[Hone ->]|[Hone ->]]; cbn [rbind].
        * left. split; [done|]. split; [done|]. eexists. split; [done|].
          destruct (dest_trns tp); done.
        * right. split; [|eauto]. naive_solver.
  Qed.

  Fixpoint set_ok (seen : gset str) (tps : list transaction_postings) : Prop :=
    match tps with
    | [] => True
    | tp :: tps => (seen_ok seen (tp_posts tp) ∧ one_trn tp) ∧
                   set_ok (posts_fps (tp_posts tp) ∪ seen) tps
    end.

  Lemma make_pending_spec tps : ∀ seen,
    (set_ok seen tps ∧ ∃ pending, Forall2 action_for tps pending ∧
       make_pending_from ho m seen tps = Ok pending) ∨
    (¬ set_ok seen tps ∧ ∃ e, make_pending_from ho m seen tps = Err e).
  Proof using Hho Hrep Hwf.
    induction tps as [|tp tps IH]; intros seen; cbn [make_pending_from set_ok].
    - left. split; [done|]. exists []. split; [constructor|done].
    - destruct (to_action_spec seen tp) as [(H1 & H2 & a & Ha & ->)|[H1 [e ->]]]; cbn [rbind].
      2:{ right. naive_solver. }
      destruct (IH (posts_fps (tp_posts tp) ∪ seen)) as [(H3 & l & Hl & ->)|[H3 [e ->]]]; cbn [rbind].
      + left. split; [done|]. exists (a :: l). split; [by constructor|done].
      + right. naive_solver.
  Qed.

  (** The same conditions, as stated in [valid_set]. *)
  Lemma seen_ok_iff seen ps :
    seen_ok seen ps ↔ (∀ p, p ∈ ps → mergeable p) ∧ fps_distinct ps ∧
      (∀ p, p ∈ ps → fps_of p ## seen) ∧ (∀ p, p ∈ ps → (length (fp_hits j p) ≤ 1)%nat).
  Proof.
    revert seen; induction ps as [|p ps IH]; intros seen; simpl.
    - split; [|done]. intros _. split_and!; try by intros ? ?%elem_of_nil.
      intros i k ? ?. by rewrite lookup_nil.
    - rewrite IH. clear IH. split.
      + intros (Hm & Hd & Hl & Hms & Hdist & Hds & Hls). split_and!.
        * intros q [->|Hq]%elem_of_cons; auto.
        * intros i k q r Hi Hk Hsh. destruct i as [|i], k as [|k]; simpl in *; simplify_eq; try done.
          -- exfalso. apply elem_of_list_lookup_2 in Hk. specialize (Hds _ Hk).
             apply share_fp_fps in Hsh. set_solver.
          -- exfalso. apply elem_of_list_lookup_2 in Hi. specialize (Hds _ Hi).
             apply share_fp_fps in Hsh. set_solver.
          -- f_equal. eapply Hdist; eauto.
        * intros q [->|Hq]%elem_of_cons; [done|]. specialize (Hds _ Hq). set_solver.
        * intros q [->|Hq]%elem_of_cons; auto.
      + intros (Hm & Hdist & Hd & Hl). split_and!.
        * apply Hm. left.
        * apply Hd. left.
        * apply Hl. left.
        * intros q Hq. apply Hm. by right.
        * intros i k q r Hi Hk Hsh. assert (S i = S k); [|lia].
          apply (Hdist _ _ q r); done.
        * intros q Hq. assert (fps_of q ## seen) by (apply Hd; by right).
          assert (fps_of q ## fps_of p); [|set_solver].
          apply elem_of_list_lookup_1 in Hq as [i Hi].
          destruct (decide (fps_of q ## fps_of p)) as [|Hn]; [done|].
          apply share_fp_fps in Hn.
          assert (S i = 0%nat); [|lia]. apply (Hdist _ _ q p); done.
        * intros q Hq. apply Hl. by right.
  Qed.
  Lemma set_ok_iff tps seen :
    set_ok seen tps ↔ seen_ok seen (all_posts tps) ∧ ∀ tp, tp ∈ tps → one_trn tp.
  Proof.
    revert seen; induction tps as [|tp tps IH]; intros seen; cbn [set_ok].
    - split; [|done]. intros _. split; [done|]. by intros ? ?%elem_of_nil.
    - change (all_posts (tp :: tps)) with (tp_posts tp ++ all_posts tps).
      rewrite seen_ok_app, IH.
      split.
      + intros [[H1 H2] [H3 H4]]. split; [done|]. intros tp' [->|Ht]%elem_of_cons; auto.
      + intros [[H1 H2] H3]. split; [split; [done|apply H3; left]|]. split; [done|].
        intros tp' Ht. apply H3. by right.
  Qed.
  Lemma one_trn_iff tp : one_trn tp ↔
    (∀ i k x y, left_out j tp = false → i ∈ dests j tp → k ∈ dests j tp →
       j_posts j !! i = Some x → j_posts j !! k = Some y → jp_trn x = jp_trn y).
  Proof.
    unfold one_trn. setoid_rewrite elem_of_dest_trns. split.
    - intros H i k x y Hl Hi Hk Hx Hy. apply H; eauto.
    - intros H Hl t t' (i & x & Hi & Hx & <-) (k & y & Hk & Hy & <-). eauto.
  Qed.
  Lemma valid_set_iff tps :
    valid_set j tps ↔ set_ok ∅ tps ∧ NoDup (all_dests j tps).
  Proof.
    rewrite set_ok_iff, seen_ok_iff. split.
    - intros [H1 H2 H3 H4 H5]. split_and!; try done.
      + intros p (tp & Hp & Htp)%elem_of_list_bind. eauto.
      + intros tp Htp. apply one_trn_iff. intros. eauto.
    - intros [[(H1 & H2 & _ & H3) H4] H5]. split; try done.
      + intros tp p Htp Hp. apply H3. apply elem_of_list_bind. eauto.
      + intros tp i k x y Htp. specialize (H4 tp Htp). rewrite one_trn_iff in H4. eauto.
  Qed.

  (** ** The check phase *)
  Definition dest_of (ia : input * post_action) : option (nat * input) :=
    match ia.2 with PNew => None | PMergeInto x => Some (x, ia.1) end.
  Definition pairs_of (a : trn_action) : list (nat * input) :=
    match a with TMergeInto _ l _ => omap dest_of l | _ => [] end.

  Lemma push_all_lookup (l : list (nat * input)) mp x :
    default [] (foldl (λ mp '(x, i), push_entry x i mp) mp l !! x) =
    default [] (mp !! x) ++ (filter (λ y, y.1 = x) l).*2.
  Proof.
    revert mp; induction l as [|[y i] l IH]; intros mp; cbn [foldl].
    - by rewrite filter_nil, app_nil_r.
    - rewrite IH. unfold push_entry. destruct (decide (y = x)) as [->|].
      + rewrite lookup_insert, filter_cons_True by done. simpl. by rewrite <- app_assoc.
      + by rewrite lookup_insert_ne, filter_cons_False by done.
  Qed.
  Lemma sources_by_dest_flat pending :
    sources_by_dest pending = foldl (λ mp '(x, i), push_entry x i mp) ∅ (pending ≫= pairs_of).
  Proof.
    unfold sources_by_dest. generalize (∅ : gmap nat (list input)).
    induction pending as [|a pending IH]; intros mp; cbn [foldl]; [done|].
    rewrite bind_cons, foldl_app, IH. f_equal.
    destruct a as [| trn l t|]; simpl; try done.
    clear. revert mp; induction l as [|[i [|x]] l IH]; intros mp; cbn [foldl]; [done|..].
    - rewrite IH. done.
    - rewrite IH. done.
  Qed.

  Lemma check_entries_spec l : (∀ x k, (x, k) ∈ l → (x < length (j_posts j))%nat) →
    (Forall (λ e, length e.2 ≤ 1)%nat l ∧ check_entries m l = Ok tt) ∨
    (¬ Forall (λ e, length e.2 ≤ 1)%nat l ∧ check_entries m l = Err ESameDestination).
  Proof using Hrep.
    induction l as [|[x k] l IH]; intros Hv; cbn [check_entries].
    - left. split; [constructor|done].
    - destruct (1 <? length k)%nat eqn:E.
      + apply Nat.ltb_lt in E. right. split; [intros H; inversion H; simpl in *; lia|].
        destruct (lookup_lt_is_Some_2 (j_posts j) x) as [y Hy]; [eapply Hv; left|].
        unfold posts_get. rewrite rep_lookup, Hy. done.
      + apply Nat.ltb_ge in E. destruct IH as [[H1 H2]|[H1 H2]].
        { intros. eapply Hv. by right. }
        * left. split; [constructor; done|done].
        * right. split; [|done]. inversion 1; done.
  Qed.

  Lemma NoDup_fst_filter (l : list (nat * input)) :
    NoDup l.*1 ↔ ∀ x, (length (filter (λ y, y.1 = x) l) ≤ 1)%nat.
  Proof.
    induction l as [|[y i] l IH]; csimpl.
    - split; [simpl; lia|constructor].
    - rewrite NoDup_cons, IH. split.
      + intros [Hy Hn] x. destruct (decide (y = x)) as [->|].
        * rewrite filter_cons_True by done. simpl.
          destruct (filter (λ y, y.1 = x) l) as [|z k] eqn:E; [simpl; lia|].
          exfalso. apply Hy. assert (z ∈ filter (λ y, y.1 = x) l) as Hz by (rewrite E; left).
          apply elem_of_list_filter in Hz as [<- Hz]. apply elem_of_list_fmap. eauto.
        * by rewrite filter_cons_False by done.
      + intros H. split.
        * intros (z & -> & Hz)%elem_of_list_fmap. specialize (H z.1).
          rewrite filter_cons_True in H by done. simpl in H.
          assert (z ∈ filter (λ y, y.1 = z.1) l) as Hin by (by apply elem_of_list_filter).
          destruct (filter (λ y, y.1 = z.1) l); [by apply elem_of_nil in Hin|]. simpl in H. lia.
        * intros x. specialize (H x). destruct (decide (y = x)).
          -- rewrite filter_cons_True in H by done. simpl in H. lia.
          -- by rewrite filter_cons_False in H by done.
  Qed.

  Lemma pairs_of_action tp a : action_for tp a →
    (pairs_of a).*1 = if left_out j tp then [] else dests j tp.
  Proof.
    unfold action_for. destruct (left_out j tp); [by intros (tp' & -> & _)|].
    intros ->. rewrite <- (action_dests_spec tp (tp_date tp)).
    assert (∀ l, (omap dest_of l).*1 = action_dests l) as Hd.
    { induction l as [|[i [|x]] l IH]; csimpl; [done|done|]. cbn. f_equal. apply IH. }
    destruct (dest_trns tp) as [|t ts] eqn:E; simpl; [|by rewrite Hd].
    rewrite action_dests_spec. unfold dest_trns in E. pose proof (dests_valid tp) as Hv.
    destruct (dests j tp) as [|i l]; [done|]. simpl in E.
    destruct (lookup_lt_is_Some_2 (j_posts j) i) as [x Hx]; [apply Hv; left|].
    rewrite Hx in E. done.
  Qed.
  Lemma pairs_of_actions tps pending : Forall2 action_for tps pending →
    (pending ≫= pairs_of).*1 = all_dests j tps.
  Proof.
    unfold all_dests. induction 1 as [|tp a tps pending Ha _ IH]; [done|].
    rewrite !bind_cons, fmap_app, IH, (pairs_of_action tp a Ha). done.
  Qed.

  Lemma check_pending_spec tps pending : Forall2 action_for tps pending →
    (NoDup (all_dests j tps) ∧ check_pending m pending = Ok tt) ∨
    (¬ NoDup (all_dests j tps) ∧ check_pending m pending = Err ESameDestination).
  Proof using Hrep.
    intros Hf. unfold check_pending.
    pose proof (pairs_of_actions _ _ Hf) as Hp. rewrite <- Hp.
    assert (∀ x k, sources_by_dest pending !! x = Some k →
              k = (filter (λ y, y.1 = x) (pending ≫= pairs_of)).*2) as Hlook.
    { intros x k Hk. rewrite sources_by_dest_flat in Hk.
      pose proof (push_all_lookup (pending ≫= pairs_of) ∅ x) as E. rewrite Hk in E.
      rewrite lookup_empty in E. done. }
    destruct (check_entries_spec (map_to_list (sources_by_dest pending))) as [[H1 H2]|[H1 H2]].
    { intros x k Hin. apply elem_of_map_to_list in Hin.
      rewrite sources_by_dest_flat in Hin.
      assert (x ∈ all_dests j tps) as Hx.
      { rewrite <- Hp. clear -Hin.
        assert (∀ l (mp : gmap nat (list input)) x k,
          foldl (λ mp '(x, i), push_entry x i mp) mp l !! x = Some k →
          x ∈ l.*1 ∨ is_Some (mp !! x)) as H.
        { induction l as [|[y i] l IH]; intros mp x' k' E; simpl in *; [by eauto|].
          apply IH in E as [E|E]; [left; by right|]. unfold push_entry in E.
          destruct (decide (y = x')) as [->|]; [left; by left|].
          rewrite lookup_insert_ne in E by done. by right. }
        apply H in Hin as [?|Hin]; [done|]. rewrite lookup_empty in Hin. by destruct Hin. }
      unfold all_dests in Hx. apply elem_of_list_bind in Hx as (tp & Hx & _).
      destruct (left_out j tp); [by apply elem_of_nil in Hx|]. by eapply dests_valid. }
    - left. split; [|done]. apply NoDup_fst_filter. intros x.
      destruct (sources_by_dest pending !! x) as [k|] eqn:E.
      + pose proof E as Hk. apply Hlook in E.
        apply elem_of_map_to_list in Hk. rewrite Forall_forall in H1. specialize (H1 _ Hk).
        simpl in H1. rewrite E in H1. by rewrite fmap_length in H1.
      + rewrite sources_by_dest_flat in E.
        pose proof (push_all_lookup (pending ≫= pairs_of) ∅ x) as E2. rewrite E in E2.
        rewrite lookup_empty in E2. simpl in E2.
        apply (f_equal length) in E2. rewrite fmap_length in E2. simpl in E2. lia.
    - right. split; [|done]. intros Hn. apply H1. apply Forall_forall. intros [x k] Hin.
      apply elem_of_map_to_list, Hlook in Hin as ->. simpl. rewrite fmap_length.
      by apply NoDup_fst_filter.
  Qed.
End pending.

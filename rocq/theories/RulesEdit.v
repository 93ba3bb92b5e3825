(** Rules as edits. *)
From stdpp Require Import gmap list relations.
From Verif Require Import Base Types CommentModel MergeModel SpecBase BaseProofs MergeSpec MergeClaims
  MergeProofs MergePending MergeApply MergeBuild MergeClosed MergeLemmas MergePlaces MergeLaws MergeLaws2
  MergeLaws3 MergeLaws4 MergeReplay MergeLaws5 RulesModel RulesClaims RulesProofs RulesLaws EditClaims MergeEdit.
Local Open Scope nat_scope.

Lemma changes_fp T p p' : leaves_fingerprints T → posting_changes T p p' → ∀ f, has_fp p' f ↔ has_fp p f.
Proof.
  intros HT (_ & H1 & H2 & _) f. split; intros [Hf Ht]; (split; [done|]);
    destruct (HT f (or_introl Hf)) as [Ha Hr]; naive_solver.
Qed.
Lemma changes_mergeable T p p' : leaves_fingerprints T → posting_changes T p p' → mergeable p → mergeable p'.
Proof.
  intros HT Hc [[f Hf] Hn]. split.
  - exists f. by apply (changes_fp T p p').
  - intros t Ht Hct. destruct Hc as (_ & H1 & _). destruct (HT t (or_intror Hct)) as [Ha _].
    destruct (H1 t Ht) as [H|H]; [|done]. by apply (Hn t).
Qed.
Lemma Forall2_all_posts T out J : Forall2 (tp_changes T) out J → Forall2 (posting_changes T) (all_posts out) (all_posts J).
Proof.
  induction 1 as [|a b l k [_ H] _ IH]; [constructor|].
  change (all_posts (a :: l)) with (tp_posts a ++ all_posts l). change (all_posts (b :: k)) with (tp_posts b ++ all_posts k).
  by apply Forall2_app.
Qed.
Lemma rules_journal_ok T out J : leaves_fingerprints T → Forall2 (tp_changes T) out J → journal_ok out → journal_ok J.
Proof.
  intros HT HF (H1 & H2 & H3). pose proof (Forall2_all_posts T out J HF) as Hp. split_and!.
  - intros p [k Hk]%elem_of_list_lookup. destruct (Forall2_lookup_r _ _ _ _ _ Hp Hk) as (p0 & Hp0 & Hc).
    eapply changes_mergeable; [done..|]. apply H1. by eapply elem_of_list_lookup_2.
  - intros i k p q Hi Hk (f & Hfp & Hfq).
    destruct (Forall2_lookup_r _ _ _ _ _ Hp Hi) as (p0 & Hp0 & Hcp). destruct (Forall2_lookup_r _ _ _ _ _ Hp Hk) as (q0 & Hq0 & Hcq).
    apply (H2 i k p0 q0 Hp0 Hq0). exists f. split; [by apply (changes_fp T p0 p HT Hcp f)|by apply (changes_fp T q0 q HT Hcq f)].
  - intros tp [k Hk]%elem_of_list_lookup. destruct (Forall2_lookup_r _ _ _ _ _ HF Hk) as (t0 & Ht0 & _ & Hps).
    intros E. rewrite E in Hps. apply (H3 t0); [by eapply elem_of_list_lookup_2|]. by apply Forall2_nil_inv_r in Hps.
Qed.
Lemma rules_edited T out J : leaves_fingerprints T → Forall2 (tp_changes T) out J → edited out J.
Proof.
  intros HT HF. exists (λ a b, (a, b)). split_and!.
  - intros a b tp p Ha Hb. destruct (Forall2_lookup_l _ _ _ _ _ HF Ha) as (tp' & Ha' & _ & Hps).
    destruct (Forall2_lookup_l _ _ _ _ _ Hps Hb) as (p' & Hb' & Hc). exists tp', p'. split_and!; [done..|].
    intros f. by apply (changes_fp T p p').
  - done.
  - intros. by simplify_eq.
Qed.
Lemma built_ok m ho out : reachable m → hash_order_ok ho → build ho m = Ok out → journal_ok out.
Proof.
  intros Hr Hho Hb. destruct (reachable_represents m Hr) as (j & Hj & Hwf). split_and!.
  - intros p Hp. rewrite (built_posts_perm ho m j out) in Hp by done.
    apply elem_of_list_fmap in Hp as (x & -> & Hx). by apply Hwf.
  - by apply (built_distinct m j Hr Hj ho).
  - intros tp Htp. by eapply (no_empties m j Hr Hj ho out).
Qed.
Lemma clean_reachable runs m m' : clean_run m runs m' → reachable m → reachable m'.
Proof.
  induction 1 as [|ho tps m0 m1 runs m2 Hho Hm Hrun IH]; [done|]. intros Hr. apply IH.
  replace m1 with (merge ho m0 tps).1 by by rewrite Hm. by constructor.
Qed.

Lemma sorted_kept out J : Forall2 (λ a b, tp_date b = tp_date a) out J →
  StronglySorted (λ a b, date_leb (tp_date a) (tp_date b) = true) out →
  StronglySorted (λ a b, date_leb (tp_date a) (tp_date b) = true) J.
Proof.
  induction 1 as [|a b l k E HF IH]; intros Hs; [constructor|]. apply StronglySorted_inv in Hs as [Hs Ha]. constructor; [auto|].
  apply Forall_forall. intros y [i Hy]%elem_of_list_lookup. destruct (Forall2_lookup_r _ _ _ _ _ HF Hy) as (x & Hx & Exy).
  cbn in Exy. rewrite Exy, E. eapply Forall_forall in Ha; [exact Ha|]. by eapply elem_of_list_lookup_2.
Qed.

(** C85 *)
Lemma replay_ruled runs m ho out X T n J : clean_run merger_new runs m → hash_order_ok ho → build ho m = Ok out →
  leaves_fingerprints T → update_transactions X ho T n out = Some (Ok J) →
  ∀ hos, length hos = S (length runs) → Forall hash_order_ok hos →
  ∃ m' out', clean_run merger_new (zip hos (J :: runs.*2)) m' ∧ (∀ ho', hash_order_ok ho' → build ho' m' = Ok out') ∧
    Forall2 trn_refines J out'.
Proof.
  intros Hrun Hho Hb HT Hu.
  assert (reachable m) as Hr by (eapply clean_reachable; [done|constructor]).
  assert (stable_sort (by_key tp_date) J = J) as Es.
  { apply stable_sort_id.
    destruct (reachable_represents m Hr) as (j & Hj & _). pose proof (built_sorted m j Hj ho out Hho Hb) as Hs.
    eapply sorted_kept; [|exact Hs]. eapply Forall2_impl; [exact (c53_kept X ho T n out J Hho Hu)|]. intros a b [Hk _]. apply Hk. }
  pose proof (c53_changes X ho T n out J Hho Hu) as HF.
  assert (journal_ok J) as HJ. { eapply rules_journal_ok; [done..|]. by eapply built_ok. }
  pose proof (replay_edited runs m ho out J Hrun Hho Hb HJ (rules_edited T out J HT HF)) as H. by rewrite Es in H.
Qed.

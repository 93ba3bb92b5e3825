(** A journal that stops recording postings under the dates of their transactions. *)
From Verif Require Import Base Types CommentModel MergeModel SpecBase BaseProofs MergeSpec MergeClaims
  MergeProofs MergePending MergeApply MergeBuild MergeClosed MergeLemmas MergePlaces MergeLaws MergeLaws2
  MergeExamples PropsMergeProofs ResolveClaims DatesClaims Dates.
Local Open Scope nat_scope.

Definition ex_days1 : journal := spec_merge journal_new [c19_t1].
Definition ex_days2 : journal := spec_merge ex_days1 [c19_t2].
Lemma ex_days1_rep : reachable (merge default_order merger_new [c19_t1]).1 ∧
  represents (merge default_order merger_new [c19_t1]).1 ex_days1.
Proof.
  split; [repeat constructor; apply default_order_ok|].
  destruct (merge default_order merger_new [c19_t1]) as [m' r] eqn:E. cbn [fst].
  assert (r = Ok []) as ->.
  { replace r with (merge default_order merger_new [c19_t1]).2 by by rewrite E. by_compute. }
  exact (proj1 (proj2 (proj2 (merge_inv _ _ reach_new rep_new _ _ _ _ default_order_ok E)))).
Qed.
Lemma ex_days2_run : (merge default_order (merge default_order merger_new [c19_t1]).1 [c19_t2]).2 = Ok [] ∧ represents c19_m ex_days2.
Proof.
  destruct ex_days1_rep as [Hr Hj]. unfold c19_m. set (m := (merge default_order merger_new [c19_t1]).1) in *.
  assert ((merge default_order m [c19_t2]).2 = Ok []) as E2 by (unfold m; by_compute).
  split; [exact E2|].
  destruct (merge default_order m [c19_t2]) as [m' r] eqn:E. cbn [fst snd] in *. subst r.
  exact (proj1 (proj2 (proj2 (merge_inv _ _ Hr Hj _ _ _ _ default_order_ok E)))).
Qed.
(** Recording dates, computed. *)
Definition dates_of (j : journal) : list (date * option date) :=
  (λ x, (jp_date x, (λ h, t_date (ti_raw h)) <$> (j_trns j !! jp_trn x))) <$> j_posts j.
Lemma dates_of_agree j : forallb (λ x, bool_decide (x.2 = None ∨ Some x.1 = x.2)) (dates_of j) = true ↔ dates_agree j.
Proof.
  unfold dates_of, dates_agree. rewrite forallb_forall. setoid_rewrite <- elem_of_list_In. split.
  - intros H x h Hx Hh. specialize (H _ (elem_of_list_fmap_1 _ _ _ Hx)). apply bool_decide_eq_true in H.
    cbn [fst snd] in H. rewrite Hh in H.
    destruct H as [H|H]; [discriminate H|]. simpl in H. congruence.
  - intros H y (x & -> & Hx)%elem_of_list_fmap. apply bool_decide_eq_true. cbn [fst snd].
    destruct (j_trns j !! jp_trn x) as [h|] eqn:Eh; [right|by left].
    simpl. f_equal. by apply H.
Qed.
Lemma ex_days : dates_agree ex_days1 ∧ ¬ dates_agree ex_days2 ∧ ¬ joins_own_date ex_days1 [c19_t2].
Proof.
  assert (dates_agree ex_days1) as H1 by (apply dates_of_agree; by_compute).
  assert (¬ dates_agree ex_days2) as H2.
  { rewrite <- dates_of_agree. assert (∀ b, b = false → ¬ b = true) as H by by intros []. apply H. by_compute. }
  split; [done|]. split; [done|]. intros H. apply H2.
  destruct ex_days1_rep as [Hr Hj]. destruct ex_days2_run as [E HJ].
  destruct (merge default_order (merge default_order merger_new [c19_t1]).1 [c19_t2]) as [m' r] eqn:Em. cbn [snd] in E. subst r.
  assert (c19_m = m') as Ec by (unfold c19_m; by rewrite Em). rewrite Ec in HJ.
  by apply (dates_exact _ _ Hr Hj default_order [c19_t2] m' [] ex_days2 default_order_ok Em HJ).
Qed.
(** A second posting for a transaction of the same date. *)
Definition ex_days_t4 := ex_tp day1 (s2l "rent") [ex_post bank (-700) [s2l "fp-1"]; ex_post food 500 [s2l "fp-4"]].
Lemma ex_days_own : dates_agree (spec_merge ex_days1 [ex_days_t4]) ∧ joins_own_date ex_days1 [ex_days_t4].
Proof.
  assert (dates_agree (spec_merge ex_days1 [ex_days_t4])) as H by (apply dates_of_agree; by_compute).
  split; [exact H|]. destruct ex_days1_rep as [Hr Hj]. set (m := (merge default_order merger_new [c19_t1]).1) in *.
  assert ((merge default_order m [ex_days_t4]).2 = Ok []) as E2 by (unfold m; by_compute).
  destruct (merge default_order m [ex_days_t4]) as [m' r] eqn:E. cbn [snd] in *. subst r.
  pose proof (proj1 (proj2 (proj2 (merge_inv _ _ Hr Hj _ _ _ _ default_order_ok E)))) as HJ.
  by apply (dates_exact _ _ Hr Hj default_order [ex_days_t4] m' [] _ default_order_ok E HJ).
Qed.

(** Instances for C112. *)
From Verif Require Import Base Types CommentModel MergeModel SpecBase MergeSpec MergeClaims MergeLemmas MergeExamples CmdClaims
  WorkflowExamples PiecesClaims PiecesExamples TwinClaims.
Local Open Scope nat_scope.

(** A checker for [two_sources]. *)
Definition tw_check_apart (w : paired) : bool :=
  forallb (λ ax, forallb (λ ay,
    match ax.2.2, ay.2.2 with
    | _, Some (tp', qs) => bool_decide (tp_date ax.2.1 ≠ tp_date tp') ||
        forallb (λ bp, forallb (λ bq, negb (matches bp.2 bq.2) || bool_decide (ax.1 = ay.1 ∧ bp.1 = bq.1))
          (imap pair qs)) (imap pair (tp_posts ax.2.1))
    | _, None => true
    end) (imap pair w)) (imap pair w).
Lemma imap_pair_in {T} (l : list T) i x : l !! i = Some x → In (i, x) (imap pair l).
Proof. intros H. apply elem_of_list_In, elem_of_lookup_imap. eauto. Qed.
Lemma tw_check_apart_spec w : tw_check_apart w = true → ∀ a a' b b' tp o tp' tp'' qs p q,
  w !! a = Some (tp, o) → w !! a' = Some (tp'', Some (tp', qs)) →
  tp_posts tp !! b = Some p → qs !! b' = Some q → tp_date tp = tp_date tp' → soft_match p q → a = a' ∧ b = b'.
Proof.
  unfold tw_check_apart. rewrite forallb_forall. intros H a a' b b' tp o tp' tp'' qs p q Ha Ha' Hb Hb' Hd Hs.
  specialize (H _ (imap_pair_in _ _ _ Ha)). rewrite forallb_forall in H. specialize (H _ (imap_pair_in _ _ _ Ha')).
  cbn [fst snd] in H. apply orb_true_iff in H as [H%bool_decide_eq_true|H]; [done|].
  rewrite forallb_forall in H. specialize (H _ (imap_pair_in _ _ _ Hb)). rewrite forallb_forall in H.
  specialize (H _ (imap_pair_in _ _ _ Hb')). cbn [fst snd] in H. apply matches_spec in Hs. rewrite Hs in H.
  by apply bool_decide_eq_true in H.
Qed.
Definition tw_check_new (w : paired) (extra : list transaction_postings) : bool :=
  forallb (λ tp, forallb (λ tp', bool_decide (tp_date tp ≠ tp_date tp') ||
    forallb (λ p, forallb (λ q, negb (matches p q)) (tp_posts tp')) (tp_posts tp)) extra) (first_source w).
Definition tw_check_twins (w : paired) : bool :=
  forallb (λ x, match x.2 with
    | Some (tp', qs) => bool_decide (tp_date tp' = tp_date x.1) && bool_decide (qs ≡ₚ tp_posts tp') &&
        bool_decide (length qs = length (tp_posts x.1)) && forallb (λ pq, matches pq.1 pq.2) (zip (tp_posts x.1) qs)
    | None => true end) w.
Lemma two_sources_check w extra :
  forallb mergeableb (all_posts (first_source w) ++ all_posts (second_source w extra)) = true →
  NoDup ((all_posts (first_source w) ++ all_posts (second_source w extra)) ≫= fps_of) →
  forallb (λ tp, match tp_posts tp with [] => false | _ => true end) (first_source w ++ extra) = true →
  tw_check_twins w = true → tw_check_apart w = true → tw_check_new w extra = true → two_sources w extra.
Proof.
  intros H1 H2 H3 H4 H5 H6. split.
  - intros p Hp. rewrite forallb_forall in H1. by apply mergeable_check, H1, elem_of_list_In.
  - by apply distinct_check.
  - intros tp Htp E. rewrite forallb_forall in H3. specialize (H3 tp ltac:(by apply elem_of_list_In)). by rewrite E in H3.
  - intros tp tp' qs Hin. unfold tw_check_twins in H4. rewrite forallb_forall in H4.
    specialize (H4 _ ltac:(by apply elem_of_list_In)). cbn [fst snd] in H4. rewrite !andb_true_iff, !bool_decide_eq_true in H4.
    destruct H4 as [[[Hd Hp] Hl] Hm]. split_and!; [done|done|]. clear -Hl Hm. revert qs Hl Hm.
    induction (tp_posts tp) as [|p ps IH]; intros [|q qs] Hl Hm; try done.
    cbn [zip zip_with forallb fst snd] in Hm. apply andb_true_iff in Hm as [Hm1 Hm2]. constructor; [by apply matches_spec|].
    apply IH; [|done]. cbn [length] in Hl. congruence.
  - by apply tw_check_apart_spec.
  - intros tp tp' p q Htp Htp' Hp Hq Hd Hs. unfold tw_check_new in H6. rewrite forallb_forall in H6.
    specialize (H6 tp ltac:(by apply elem_of_list_In)). rewrite forallb_forall in H6. specialize (H6 tp' ltac:(by apply elem_of_list_In)).
    apply orb_true_iff in H6 as [H6%bool_decide_eq_true|H6]; [done|].
    rewrite forallb_forall in H6. specialize (H6 p ltac:(by apply elem_of_list_In)). rewrite forallb_forall in H6.
    specialize (H6 q ltac:(by apply elem_of_list_In)). apply matches_spec in Hs. by rewrite Hs in H6.
Qed.

(** A transfer between two accounts, as each of the two banks reports it, and a
    payment only the first, a payment only the second knows. *)
Definition tw_bank_a : str := s2l "assets:first bank".
Definition tw_bank_b : str := s2l "assets:second bank".
Definition tw_unk (q : Z) (f : str) : posting_internal := ex_post unknown q [f; s2l "unknown-account"].
Definition tw_a1 := ex_tp day1 (s2l "to savings") [ex_post tw_bank_a (-500) [s2l "fp-a1"]; tw_unk 500 (s2l "fp-a2")].
Definition tw_a2 := ex_tp day1 (s2l "cafe") [ex_post tw_bank_a (-300) [s2l "fp-a3"]; tw_unk 300 (s2l "fp-a4")].
Definition tw_q1 := ex_post tw_bank_b 500 [s2l "fp-b1"].
Definition tw_q2 := tw_unk (-500) (s2l "fp-b2").
Definition tw_b1 := ex_tp day1 (s2l "from current") [tw_q1; tw_q2].
Definition tw_b2 := ex_tp day2 (s2l "interest") [ex_post tw_bank_b 7 [s2l "fp-b3"]; tw_unk (-7) (s2l "fp-b4")].
Definition tw_w : paired := [(tw_a1, Some (tw_b1, [tw_q2; tw_q1])); (tw_a2, None)].
Lemma tw_ok : two_sources tw_w [tw_b2].
Proof. apply two_sources_check; by_compute. Qed.
Lemma two_of {T} (x y z : T) c : [x; y] !! c = Some z → (c = 0 ∧ z = x) ∨ (c = 1 ∧ z = y).
Proof. destruct c as [|[|c]]; simpl; [left|right|done]; split; congruence. Qed.
Lemma tw_extra_apart : extra_apart tw_w [tw_b2].
Proof.
  intros c c' tp tp' q p Hc Hc' Hne Hin. apply elem_of_list_singleton in Hin as ->. intros Hq Hp Hd Hs.
  change (second_source tw_w [tw_b2]) with [tw_b1; tw_b2] in *.
  apply two_of in Hc as [[-> E]|[-> E]]; [apply (f_equal tp_date) in E; vm_compute in E; congruence|].
  apply two_of in Hc' as [[-> ->]|[-> _]]; [vm_compute in Hd; congruence|congruence].
Qed.
(** The transfer appears once, between the two banks, with all four fingerprints. *)
Lemma tw_result :
  (λ p, (p_account (pi_raw p), elements (tags (pi_comment p)))) <$> tp_posts (joined (tw_a1, Some (tw_b1, [tw_q2; tw_q1]))) =
  [(tw_bank_a, [s2l "fp-a1"; s2l "fp-b2"]); (tw_bank_b, [s2l "fp-b1"; s2l "fp-a2"])].
Proof. vm_compute. reflexivity. Qed.

(** Two payments of one amount on one day: neither source's can be told apart, and
    those of the second are handed back. *)
Definition tw_c1 := ex_tp day1 (s2l "one") [ex_post tw_bank_a (-500) [s2l "fp-a1"]].
Definition tw_c2 := ex_tp day1 (s2l "two") [ex_post tw_bank_a (-500) [s2l "fp-a2"]].
Definition tw_d1 := ex_tp day1 (s2l "one") [ex_post tw_bank_a (-500) [s2l "fp-b1"]].
Definition tw_d2 := ex_tp day1 (s2l "two") [ex_post tw_bank_a (-500) [s2l "fp-b2"]].
Lemma tw_needed : ∃ m1 m2 un, merge default_order merger_new [tw_c1; tw_c2] = (m1, Ok []) ∧
  merge default_order m1 [tw_d1; tw_d2] = (m2, Ok un) ∧ length un = 2 ∧
  rmap length (build default_order m2) = Ok 2.
Proof.
  exists (merge default_order merger_new [tw_c1; tw_c2]).1, (merge default_order (merge default_order merger_new [tw_c1; tw_c2]).1 [tw_d1; tw_d2]).1.
  destruct (merge default_order (merge default_order merger_new [tw_c1; tw_c2]).1 [tw_d1; tw_d2]) as [m2 r] eqn:E.
  assert (rmap length r = Ok 2) as Hr.
  { change r with (m2, r).2. rewrite <- E. vm_compute. reflexivity. }
  destruct r as [un| |]; try discriminate Hr. exists un. split_and!.
  - apply merge_eq. by_compute.
  - done.
  - by injection Hr.
  - cbn [fst]. change m2 with (m2, Ok un).1. rewrite <- E. vm_compute. reflexivity.
Qed.

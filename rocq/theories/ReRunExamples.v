(** Examples for C106 and C107. *)
From Verif Require Import MergeClaims.
From Verif Require Import Base Types SpecBase BaseProofs CommentModel MergeModel CmdModel
  CommentClaims CmdClaims CommentExamples MergeExamples CmdExamples HeaderClaims MergeSpec MergeProofs MergeLemmas PropsMergeProofs ResolveClaims PartsClaims.
Local Open Scope nat_scope.

(** Two journals of which the second adds to the first. *)
Definition rr_l2 : ledger := into_ledger default_order ex_s1.
Definition rr_c0 : codec := [(s2l "J1", ex_l1); (s2l "J2", rr_l2)].
Definition rr_sets : list (list transaction_postings) := (λ l, transaction_postings_of <$> ledger_trns l) <$> [ex_l1; rr_l2].
Definition rr_m : merger := (merge default_order (merge default_order merger_new (transaction_postings_of <$> ledger_trns ex_l1)).1
  (transaction_postings_of <$> ledger_trns rr_l2)).1.
Definition rr_out : list transaction_postings := match build default_order rr_m with Ok l => l | _ => [] end.
Definition rr_E : env := ex_env (rr_c0 ++ [(s2l "OUT", into_ledger default_order rr_out)]).
Definition rr_paths : list str := [s2l "a"; s2l "b"].
Definition rr_run : list event * result unit := merge_cmd rr_E default_order (Path <$> rr_paths) None (Path (s2l "out")) ex_w.
Lemma rr_l_ok : Forall (λ l, supported l ∧ ∀ t, t ∈ ledger_trns l → source_tag (transaction_postings_of t) = None) [ex_l1; rr_l2].
Proof.
  assert (∀ l, forallb (λ i, match i with OtherItem => false | _ => true end) l = true →
    Forall (λ t, source_tag (transaction_postings_of t) = None) (ledger_trns l) →
    supported l ∧ ∀ t, t ∈ ledger_trns l → source_tag (transaction_postings_of t) = None) as H.
  { intros l H1 H2. split; [|by apply Forall_forall]. rewrite forallb_forall in H1. intros Hi. by specialize (H1 _ ltac:(by apply elem_of_list_In)). }
  repeat (apply Forall_cons; split; [apply H; [vm_compute; reflexivity|by_compute]|]). done.
Qed.
Lemma rr_journals : journals rr_E ex_w (Path <$> rr_paths) rr_sets ex_w.
Proof.
  pose proof rr_l_ok as H. rewrite !Forall_cons in H. destruct H as ([S1 T1] & [S2 T2] & _).
  unfold rr_paths, rr_sets. rewrite !fmap_cons.
  refine (journals_cons _ _ _ _ ex_w _ _ _ _ S1 T1 _); [|refine (journals_cons _ _ _ _ ex_w _ _ _ _ S2 T2 _); [|constructor]].
  - apply (reads_path _ _ _ (s2l "J1")); [done|vm_compute; reflexivity|vm_compute; reflexivity].
  - apply (reads_path _ _ _ (s2l "J2")); [done|vm_compute; reflexivity|vm_compute; reflexivity].
Qed.
Lemma two_merges ho s1 s2 un m : merges ho merger_new [s1; s2] un m → m = (merge ho (merge ho merger_new s1).1 s2).1.
Proof.
  intros H. inversion H as [|? ? m1 u1 ? ? ? H1 H2]; subst. inversion H2 as [|? ? m2 u2 ? ? ? H3 H4]; subst. inversion H4; subst.
  rewrite H1. cbn [fst]. by rewrite H3.
Qed.
Lemma rr_merges : ∀ un m, merges default_order merger_new rr_sets un m → m = rr_m.
Proof. intros un m. exact (two_merges _ _ _ un m). Qed.

(** C107 *)
Definition steady_b (sets : list (list transaction_postings)) : bool :=
  forallb (λ tp, forallb (λ tp', bool_decide (tp_date tp = tp_date tp') ||
    negb (existsb (λ p, existsb (share_fpb p) (tp_posts tp')) (tp_posts tp))) (mjoin sets)) (mjoin sets).
Lemma steady_compute sets : steady_b sets = true → steady sets.
Proof.
  unfold steady_b. rewrite forallb_forall. intros H s s' tp tp' p q Hs Hs' Htp Htp' Hp Hq Hpq.
  assert (∀ s tp, s ∈ sets → tp ∈ s → In tp (mjoin sets)) as Hin.
  { intros s0 tp0 H1 H2. apply elem_of_list_In, elem_of_list_join. eauto. }
  specialize (H tp (Hin _ _ Hs Htp)). rewrite forallb_forall in H. specialize (H tp' (Hin _ _ Hs' Htp')).
  apply orb_true_iff in H as [H|H]; [by apply bool_decide_eq_true in H|]. apply negb_true_iff in H.
  assert (existsb (λ p, existsb (share_fpb p) (tp_posts tp')) (tp_posts tp) = true) as H'; [|by rewrite H' in H].
  apply existsb_exists. exists p. split; [by apply elem_of_list_In|]. apply existsb_exists. exists q. split; [by apply elem_of_list_In|].
  by apply share_fpb_spec.
Qed.
Lemma c107_dates_needed : ∃ s1 s2 s3 out out1 out2,
  let o := default_order in
  build o (after merger_new [(o, s1); (o, s2)]) = Ok out ∧
  build o (after merger_new [(o, s1); (o, s2); (o, s3)]) = Ok out1 ∧
  build o (after merger_new [(o, out); (o, s3)]) = Ok out2 ∧
  Forall (λ r, r = Ok []) (outcomes merger_new [(o, s1); (o, s2); (o, s3)]) ∧
  Forall (λ r, r = Ok []) (outcomes merger_new [(o, out); (o, s3)]) ∧
  length out1 = 2 ∧ length out2 = 1.
Proof.
  exists [c19_t1], [c19_t2], [c19_t3]. eexists _, _, _. cbv zeta.
  split; [vm_compute; reflexivity|]. split; [vm_compute; reflexivity|]. split; [vm_compute; reflexivity|].
  split; [repeat constructor; by_compute|]. split; [repeat constructor; by_compute|]. split; reflexivity.
Qed.

(** The first journal is merged to a file, the second is merged with that. *)
Definition pp_mid : list transaction_postings :=
  match build default_order (merge default_order merger_new (transaction_postings_of <$> ledger_trns ex_l1)).1 with Ok l => l | _ => [] end.
Definition pp_E : env := ex_env (rr_c0 ++ [(s2l "MID", into_ledger default_order pp_mid); (s2l "OUT", into_ledger default_order rr_out)]).
Definition pp_A : list event * result unit := merge_cmd pp_E default_order [Path (s2l "a")] None (Path (s2l "mid")) ex_w.
Definition pp_B : list event * result unit :=
  merge_cmd pp_E reverse_order [Path (s2l "mid"); Path (s2l "b")] None (Path (s2l "out")) (steps ex_w pp_A.1).
Definition pp_O : list event * result unit :=
  merge_cmd pp_E default_order [Path (s2l "a"); Path (s2l "b")] None (Path (s2l "once")) ex_w.
Lemma one_merge ho s un m : merges ho merger_new [s] un m → m = (merge ho merger_new s).1.
Proof. intros Hm. inversion Hm as [|? ? m1 u1 ? ? ? H1 H2]; subst. inversion H2; subst. by rewrite H1. Qed.
Lemma pp_journals : journals pp_E ex_w [Path (s2l "a")] [transaction_postings_of <$> ledger_trns ex_l1] ex_w ∧
  journals pp_E ex_w [Path (s2l "b")] [transaction_postings_of <$> ledger_trns rr_l2] ex_w.
Proof.
  pose proof rr_l_ok as H. rewrite !Forall_cons in H. destruct H as ([S1 T1] & [S2 T2] & _).
  split; [refine (journals_cons _ _ _ _ ex_w _ _ _ _ S1 T1 _); [|constructor]|refine (journals_cons _ _ _ _ ex_w _ _ _ _ S2 T2 _); [|constructor]].
  - apply (reads_path _ _ _ (s2l "J1")); [done|vm_compute; reflexivity|vm_compute; reflexivity].
  - apply (reads_path _ _ _ (s2l "J2")); [done|vm_compute; reflexivity|vm_compute; reflexivity].
Qed.

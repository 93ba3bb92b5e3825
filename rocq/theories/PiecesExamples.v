(** Examples for C110. *)
From Verif Require Import Base Types CommentModel MergeModel SpecBase BaseProofs MergeSpec MergeClaims MergeLemmas
  MergeExamples CmdClaims PiecesClaims.
Local Open Scope nat_scope.

(** A decision procedure for [told_apart]. *)
Definition mistaken_b (j : journal) (tp tp' : transaction_postings) : bool :=
  existsb (λ q, existsb (λ p, bool_decide (tp_date tp = tp_date tp') &&
      match lookup_posting j (tp_date tp) q with VNew => true | _ => false end &&
      match fp_hits j p with [] => true | _ => false end && matches q p) (tp_posts tp')) (tp_posts tp).
Lemma mistaken_b_spec j tp tp' : mistaken j tp tp' → mistaken_b j tp tp' = true.
Proof.
  intros (q & p & Hq & Hp & Hd & Hn & Hf & Hs). unfold mistaken_b.
  apply existsb_exists. exists q. split; [by apply elem_of_list_In|].
  apply existsb_exists. exists p. split; [by apply elem_of_list_In|].
  apply matches_nothing_spec in Hn. rewrite Hn. apply matches_spec in Hs. rewrite Hs.
  rewrite bool_decide_eq_true_2 by done. destruct (fp_hits j p) as [|i l] eqn:E; [done|].
  exfalso. apply (Hf i), fp_match_hits. rewrite E. left.
Qed.
Definition told_apart_b (j : journal) (tps : list transaction_postings) : bool :=
  forallb (λ a, forallb (λ a', bool_decide (a = a') ||
    match tps !! a, tps !! a' with Some tp, Some tp' => negb (mistaken_b j tp tp') | _, _ => true end) (seq 0 (length tps))) (seq 0 (length tps)).
Lemma told_apart_b_spec j tps : told_apart_b j tps = true → told_apart j tps.
Proof.
  unfold told_apart_b. rewrite forallb_forall. intros H a a' tp tp' Ha Ha' Hne Hm%mistaken_b_spec.
  pose proof (lookup_lt_Some _ _ _ Ha). pose proof (lookup_lt_Some _ _ _ Ha').
  specialize (H a ltac:(apply in_seq; lia)). rewrite forallb_forall in H. specialize (H a' ltac:(apply in_seq; lia)).
  rewrite Ha, Ha', Hm in H. apply orb_true_iff in H as [H|H]; [by apply bool_decide_eq_true in H|done].
Qed.

Definition pc_groups : list (list transaction_postings) := [[ex_u3]; [ex_u1; ex_u2]].
Lemma pc_apart : told_apart ex_j0 ex_s1.
Proof. apply told_apart_b_spec. vm_compute. reflexivity. Qed.
Lemma pc_apart' : told_apart ex_j0 (mjoin pc_groups).
Proof. apply told_apart_b_spec. vm_compute. reflexivity. Qed.
Lemma pc_perm : mjoin pc_groups ≡ₚ ex_s1.
Proof.
  change (mjoin pc_groups) with [ex_u3; ex_u1; ex_u2]. unfold ex_s1.
  generalize ex_u1, ex_u2, ex_u3. intros a b c. by rewrite (Permutation_app_comm [c] [a; b]).
Qed.
Lemma pc_differ : mjoin pc_groups ≠ ex_s1.
Proof. intros E. apply (f_equal (λ l, length ∘ tp_posts <$> l)) in E. vm_compute in E. congruence. Qed.
Lemma pc_whole : merge default_order ex_m0 ex_s1 = ((merge default_order ex_m0 ex_s1).1, Ok []).
Proof. apply merge_eq. by_compute. Qed.
Lemma pc_whole' : merge default_order ex_m0 (mjoin pc_groups) = ((merge default_order ex_m0 (mjoin pc_groups)).1, Ok []).
Proof. apply merge_eq. by_compute. Qed.

(** Two payments of the same amount on the same day. *)
Definition pc_a := ex_tp day1 (s2l "first") [ex_post bank (-500) [s2l "fp-1"]].
Definition pc_b := ex_tp day1 (s2l "second") [ex_post bank (-500) [s2l "fp-2"]].
Lemma pc_alike : mistaken journal_new pc_a pc_b.
Proof.
  exists (ex_post bank (-500) [s2l "fp-1"]), (ex_post bank (-500) [s2l "fp-2"]). split_and!; [by left..|done| | |].
  - apply matches_nothing_spec. vm_compute. reflexivity.
  - intros i (x & Hx & _). done.
  - apply matches_spec. vm_compute. reflexivity.
Qed.
Lemma pc_needed : ∃ m1 m2, merge default_order merger_new [pc_a; pc_b] = (m1, Ok []) ∧
  merges default_order merger_new [[pc_a]; [pc_b]] [] m2 ∧
  rmap (fmap (λ tp, length (tp_posts tp))) (build default_order m1) = Ok [1; 1] ∧
  rmap (fmap (λ tp, length (tp_posts tp))) (build default_order m2) = Ok [1].
Proof.
  exists (merge default_order merger_new [pc_a; pc_b]).1, (merge default_order (merge default_order merger_new [pc_a]).1 [pc_b]).1.
  split_and!.
  - apply merge_eq. by_compute.
  - refine (merges_cons _ _ _ _ [] _ [] _ _ _); [apply merge_eq; by_compute|].
    refine (merges_cons _ _ _ _ [] _ [] _ _ _); [apply merge_eq; by_compute|].
    apply merges_nil.
  - vm_compute. reflexivity.
  - vm_compute. reflexivity.
Qed.

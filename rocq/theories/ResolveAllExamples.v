(** Examples for C111. *)
From Verif Require Import MergeClaims.
From Verif Require Import Base Types SpecBase BaseProofs CommentModel MergeModel CmdModel
  CommentClaims CmdClaims CommentExamples MergeExamples CmdExamples HeaderClaims MergeSpec MergeBuild MergeProofs MergeLemmas PropsMergeProofs
  ResolveClaims MergeResolve ResolveExamples PartsClaims ReRunExamples CmdPlain WorkflowExamples PiecesClaims PiecesExamples ResolveAllClaims.
From Coq Require Import Lia.
Local Open Scope nat_scope.

(** Two transactions that could each belong to either of two payments, and one that is new. *)
Definition ra_v := ex_tp day1 (s2l "twice") [ex_post food 500 [s2l "fp-x1"]].
Definition ra_in := [ex_u4; ra_v; ex_u3].
Definition ra_u1 := ex_post food 500 [s2l "fp-x1"; s2l "candidate-fp-a2"; s2l "candidate-fp-b2"].
Definition ra_un1 := ex_tp day1 (s2l "twice") [ra_u1].
Definition ra_un := [rs_un; ra_un1].
(** The user assigns the first to the second payment and the second to the first. *)
Definition ra_r1 := ex_post food 500 [s2l "fp-x1"; s2l "fp-a2"].
Definition ra_ed1 := ex_tp day1 (s2l "twice") [ra_r1].
Definition ra_trs := [rs_edited; ra_ed1].
Definition ra_m := (merge default_order ex_m0 ra_in).1.
Definition ra_j := spec_merge ex_j0 ra_in.
Lemma ra_merge : merge default_order ex_m0 ra_in = (ra_m, Ok ra_un).
Proof. apply merge_eq. by_compute. Qed.
Lemma ra_merges : merges default_order merger_new [ex_s0; ra_in] ra_un ra_m.
Proof.
  refine (merges_cons _ _ _ ex_m0 [] _ ra_un _ _ _); [apply merge_eq; by_compute|].
  change ra_un with (ra_un ++ []). eapply merges_cons; [exact ra_merge|apply merges_nil].
Qed.
Lemma ra_represents : represents ra_m ra_j.
Proof.
  unfold ra_m. eapply step_represents; [exact ex_m0_reachable|exact ex_m0_represents|exact default_order_ok|].
  rewrite ra_merge. done.
Qed.

(** Decision procedures for [resolvable]. *)
Definition dest (j : journal) (tr : transaction_postings) (r : posting_internal) : option nat :=
  match lookup_posting j (tp_date tr) r with VMerge i => Some i | _ => None end.
Lemma dest_spec j tr r i : selects j (tp_date tr) r i → dest j tr r = Some i.
Proof. intros H%selects_spec. unfold dest. by rewrite H. Qed.
Definition one_trn_b (j : journal) (trs : list transaction_postings) : bool :=
  forallb (λ tr, forallb (λ r, forallb (λ r',
    match dest j tr r, dest j tr r' with
    | Some i, Some i' => bool_decide (jp_trn <$> j_posts j !! i = jp_trn <$> j_posts j !! i')
    | _, _ => true end) (tp_posts tr)) (tp_posts tr)) trs.
Lemma one_trn_b_spec j trs : one_trn_b j trs = true →
  ∀ tr r r' i i' x x', tr ∈ trs → r ∈ tp_posts tr → r' ∈ tp_posts tr →
    selects j (tp_date tr) r i → selects j (tp_date tr) r' i' →
    j_posts j !! i = Some x → j_posts j !! i' = Some x' → jp_trn x = jp_trn x'.
Proof.
  unfold one_trn_b. rewrite forallb_forall. intros H tr r r' i i' x x' Htr Hr Hr' Hi%dest_spec Hi'%dest_spec Hx Hx'.
  specialize (H tr (proj1 (elem_of_list_In _ _) Htr)). rewrite forallb_forall in H.
  specialize (H r (proj1 (elem_of_list_In _ _) Hr)). rewrite forallb_forall in H.
  specialize (H r' (proj1 (elem_of_list_In _ _) Hr')). rewrite Hi, Hi', Hx, Hx' in H. apply bool_decide_eq_true in H. by injection H.
Qed.
Definition dests (j : journal) (trs : list transaction_postings) : list nat :=
  trs ≫= λ tr, omap (dest j tr) (tp_posts tr).
Lemma dests_spec j trs : NoDup (dests j trs) →
  ∀ a b a' b' tr tr' r r' i,
    trs !! a = Some tr → tp_posts tr !! b = Some r → trs !! a' = Some tr' → tp_posts tr' !! b' = Some r' →
    selects j (tp_date tr) r i → selects j (tp_date tr') r' i → a = a' ∧ b = b'.
Proof.
  assert (∀ tr (l : list posting_internal) b r i, l !! b = Some r → dest j tr r = Some i → i ∈ omap (dest j tr) l) as Hin.
  { intros tr l b r i Hb Hi. apply elem_of_list_omap. exists r. split; [by eapply elem_of_list_lookup_2|done]. }
  assert (∀ tr (l : list posting_internal), NoDup (omap (dest j tr) l) → ∀ b b' r r' i, l !! b = Some r → l !! b' = Some r' →
    dest j tr r = Some i → dest j tr r' = Some i → b = b') as Hone.
  { intros tr l. induction l as [|q l IH]; intros Hn b b' r r' i Hb Hb' Hi Hi'; [done|]. csimpl in Hn.
    destruct b as [|b], b' as [|b']; simpl in *; [done| | |].
    - injection Hb as ->. rewrite Hi in Hn. apply NoDup_cons in Hn as [Hn _]. exfalso. apply Hn. by eapply Hin.
    - injection Hb' as ->. rewrite Hi' in Hn. apply NoDup_cons in Hn as [Hn _]. exfalso. apply Hn. by eapply Hin.
    - f_equal. destruct (dest j tr q); [apply NoDup_cons in Hn as [_ Hn]|]; by eapply IH. }
  intros Hn a b a' b' tr tr' r r' i Ha Hb Ha' Hb' Hi%dest_spec Hi'%dest_spec. unfold dests in Hn.
  revert a a' Ha Ha'. induction trs as [|t trs IH]; intros a a' Ha Ha'; [done|]. csimpl in Hn.
  apply NoDup_app in Hn as (Hn1 & Hn2 & Hn3). destruct a as [|a], a' as [|a']; simpl in *.
  - injection Ha as ->. injection Ha' as ->. split; [done|]. by eapply Hone.
  - injection Ha as ->. exfalso. apply (Hn2 i); [by eapply Hin|]. apply elem_of_list_bind. exists tr'. split; [by eapply Hin|by eapply elem_of_list_lookup_2].
  - injection Ha' as ->. exfalso. apply (Hn2 i); [by eapply Hin|]. apply elem_of_list_bind. exists tr. split; [by eapply Hin|by eapply elem_of_list_lookup_2].
  - destruct (IH Hn3 a a' Ha Ha') as [-> ->]. done.
Qed.

Lemma ra_resolves : resolves (s2l "fp-a2") ra_u1 ra_r1.
Proof.
  split_and!; [done..| |].
  - unfold has_tag. by_compute.
  - intros t. unfold has_tag, ra_u1, ra_r1, ex_post. cbn [pi_comment tags list_to_set].
    rewrite !elem_of_union, !elem_of_singleton, !elem_of_empty. split.
    + intros [->|[->|[]]]; [right|by left]. split; [by left|]. intros [s E]. done.
    + intros [->|[[->|[->|[->|[]]]] Hc]]; [by right; left|by left|..]; exfalso; apply Hc.
      * by exists (s2l "fp-a2").
      * by exists (s2l "fp-b2").
Qed.
Lemma ra_edited : Forall2 resolution ra_un ra_trs.
Proof.
  apply List.Forall2_cons; [exact rs_resolution|]. apply List.Forall2_cons; [|apply List.Forall2_nil].
  split; [done|]. apply List.Forall2_cons; [left; exists (s2l "fp-a2"); exact ra_resolves|]. apply List.Forall2_nil.
Qed.
Lemma ra_fresh u : u ∈ all_posts ra_un → ∀ i, ¬ fp_match_at ra_j u i.
Proof.
  assert (Forall (λ u, fp_hits ra_j u = []) (all_posts ra_un)) as H by by_compute.
  rewrite Forall_forall in H. intros Hu i Hi%fp_match_hits. rewrite (H u Hu) in Hi. by apply elem_of_nil in Hi.
Qed.
Lemma ra_clear tp u : tp ∈ ra_un → u ∈ tp_posts tp → no_candidates u → ¬ ambiguous ra_j (tp_date tp) u ∧ ¬ conflicting ra_j u.
Proof.
  intros Htp Hu Hn. split.
  - intros Ha%ambiguous_is.
    assert (∀ t, has_tag u t → t ≠ s2l "candidate-fp-a2") as Hn' by (intros t Ht ->; apply (Hn _ Ht); by exists (s2l "fp-a2")).
    assert (Forall (λ tp, Forall (λ u, is_ambiguous (lookup_posting ra_j (tp_date tp) u) = true → s2l "candidate-fp-a2" ∈ tags (pi_comment u)) (tp_posts tp)) ra_un) as H by by_compute.
    rewrite Forall_forall in H. specialize (H tp Htp). rewrite Forall_forall in H. by apply (Hn' _ (H u Hu Ha)).
  - intros (i & i' & Hne & Hi & _). apply (ra_fresh u) in Hi; [done|]. apply elem_of_list_bind. eauto.
Qed.
Lemma ra_resolvable : resolvable ra_j ra_un ra_trs.
Proof.
  split.
  - exact ra_edited.
  - intros tp Htp. assert (Forall (λ tp, tp_posts tp ≠ []) ra_un) as H by by_compute. rewrite Forall_forall in H. by apply H.
  - apply distinct_check. by_compute.
  - intros u Hu _. by apply ra_fresh.
  - exact ra_clear.
  - apply one_trn_b_spec. vm_compute. reflexivity.
  - apply dests_spec. by_compute.
  - apply told_apart_b_spec. vm_compute. reflexivity.
Qed.
(** The transactions as they first came. *)
Definition ra_origs := [ex_u4; ra_v].
Lemma ra_origs_ok : fps_distinct (all_posts ra_origs) ∧ (∀ p, p ∈ all_posts ra_origs → mergeable p) ∧
  ∀ o, o ∈ ra_origs → ∃ tp, tp ∈ ra_un ∧ equal_but_candidates o tp.
Proof.
  split; [apply distinct_check; by_compute|]. split.
  - assert (Forall (λ p, mergeableb p = true) (all_posts ra_origs)) as H by by_compute. rewrite Forall_forall in H.
    intros p Hp. by apply mergeable_check, H.
  - assert (∀ f f', f' = f → ∀ t, ¬ candidate_tag t → has_tag (ex_post food 500 [f'; s2l "candidate-fp-a2"; s2l "candidate-fp-b2"]) t ↔ has_tag (ex_post food 500 [f]) t) as H.
    { intros f f' -> t Ht. unfold has_tag, ex_post. cbn [pi_comment tags list_to_set].
      rewrite !elem_of_union, !elem_of_singleton, !elem_of_empty. split; [|by intros [->|[]]; left].
      intros [->|[->|[->|[]]]]; [by left|exfalso; apply Ht; by exists (s2l "fp-a2")|exfalso; apply Ht; by exists (s2l "fp-b2")]. }
    intros o [->|[->|Ho%elem_of_nil]%elem_of_cons]%elem_of_cons; [| |done].
    + exists rs_un. split; [apply elem_of_cons; by left|]. split; [done|].
      apply List.Forall2_cons; [split_and!; [done..|by apply H]|]. apply List.Forall2_cons; [done|apply List.Forall2_nil].
    + exists ra_un1. split; [apply elem_of_cons; right; apply elem_of_list_singleton; done|]. split; [done|].
      apply List.Forall2_cons; [split_and!; [done..|by apply H]|]. apply List.Forall2_nil.
Qed.

(** The same in files: the edited file keeps the source tags that the first run wrote. *)
Definition ra_l2 : ledger := into_ledger default_order ra_in.
Definition ra_mid : list transaction_postings := match build default_order ra_m with Ok l => l | _ => [] end.
Definition ra_src (tps : list transaction_postings) : list transaction_postings := sourced (s2l """b""") <$> tps.
Definition ra_out : list transaction_postings :=
  match build reverse_order (merge reverse_order ra_m ra_trs).1 with Ok l => l | _ => [] end.
Definition ra_led : ledger := into_ledger default_order (ra_src ra_trs).
Definition ra_E : env := ex_env
  [(s2l "J1", ex_l1); (s2l "J2", ra_l2); (s2l "MID", into_ledger default_order ra_mid);
   (s2l "UN", into_ledger default_order (ra_src ra_un)); (s2l "EDITED", ra_led);
   (s2l "OUT", into_ledger reverse_order ra_out)].
Lemma ra_writable f : writable ra_E f.
Proof. destruct f; split; reflexivity. Qed.
Definition ra_run1 : list event * result unit :=
  merge_cmd ra_E default_order (Path <$> rr_paths) (Some (Path (s2l "un"))) (Path (s2l "mid")) ex_w.
(** The user saves the edited transactions. *)
Definition ra_w2 : world :=
  let w := steps ex_w ra_run1.1 in World (<[s2l "un" := s2l "EDITED"]> (w_files w)) (w_dirs w) (w_stdin w) (w_stdout w).
Definition ra_run2 : list event * result unit :=
  merge_cmd ra_E reverse_order [Path (s2l "mid"); Path (s2l "un")] None (Path (s2l "out")) ra_w2.
Lemma ra_files : ra_run1.2 = Ok tt ∧ ra_run2.2 = Ok tt ∧
  w_files (steps ex_w ra_run1.1) !! s2l "mid" = Some (s2l "MID") ∧
  w_files (steps ex_w ra_run1.1) !! s2l "un" = Some (s2l "UN") ∧
  w_files (steps ra_w2 ra_run2.1) !! s2l "out" = Some (s2l "OUT").
Proof. split_and!; by_compute. Qed.
Lemma ra_l_ok : Forall (λ l, supported l ∧ ∀ t, t ∈ ledger_trns l → source_tag (transaction_postings_of t) = None) [ex_l1; ra_l2].
Proof.
  assert (∀ l, forallb (λ i, match i with OtherItem => false | _ => true end) l = true →
    Forall (λ t, source_tag (transaction_postings_of t) = None) (ledger_trns l) →
    supported l ∧ ∀ t, t ∈ ledger_trns l → source_tag (transaction_postings_of t) = None) as H.
  { intros l H1 H2. split; [|by apply Forall_forall]. rewrite forallb_forall in H1. intros Hi. by specialize (H1 _ ltac:(by apply elem_of_list_In)). }
  repeat (apply Forall_cons; split; [apply H; [vm_compute; reflexivity|by_compute]|]). done.
Qed.
Lemma ra_journals : journals ra_E ex_w (Path <$> rr_paths) [ex_s0; ra_in] ex_w.
Proof.
  pose proof ra_l_ok as H. rewrite !Forall_cons in H. destruct H as ([S1 T1] & [S2 T2] & _).
  unfold rr_paths. rewrite !fmap_cons.
  assert (transaction_postings_of <$> ledger_trns ex_l1 = ex_s0) as E1 by by_compute.
  assert (transaction_postings_of <$> ledger_trns ra_l2 = ra_in) as E2 by by_compute.
  rewrite <- E1, <- E2.
  refine (journals_cons _ _ _ _ ex_w _ _ _ _ S1 T1 _); [|refine (journals_cons _ _ _ _ ex_w _ _ _ _ S2 T2 _); [|constructor]].
  - apply (reads_path _ _ _ (s2l "J1")); [done|vm_compute; reflexivity|vm_compute; reflexivity].
  - apply (reads_path _ _ _ (s2l "J2")); [done|vm_compute; reflexivity|vm_compute; reflexivity].
Qed.
Lemma ra_text : Forall2 unsourced (transaction_postings_of <$> ledger_trns ra_led) ra_trs.
Proof.
  assert (transaction_postings_of <$> ledger_trns ra_led = ra_src ra_trs) as -> by by_compute.
  assert (Forall (λ tp, source_tag tp = None) ra_trs) as H by by_compute.
  unfold ra_src. generalize dependent ra_trs. intros l H. induction H as [|x l Hx H IH]; [constructor|].
  rewrite fmap_cons. constructor; [by apply sourced_unsourced|done].
Qed.

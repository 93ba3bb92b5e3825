(** Instances for C118. *)
From Verif Require Import Base Types CommentModel MergeModel CmdModel SpecBase MergeSpec MergeClaims MergeProofs MergeLemmas MergeExamples CommentClaims CmdClaims
  CmdExamples HeaderClaims WorkflowExamples PiecesClaims PiecesExamples TwinClaims TwinExamples HandClaims.
Local Open Scope nat_scope.

(** A checker for [hand_and_bank]. *)
Lemma tw_check_twins_spec w : tw_check_twins w = true → ∀ tp tp' qs, (tp, Some (tp', qs)) ∈ w →
  tp_date tp' = tp_date tp ∧ qs ≡ₚ tp_posts tp' ∧ Forall2 soft_match (tp_posts tp) qs.
Proof.
  intros H4 tp tp' qs Hin. unfold tw_check_twins in H4. rewrite forallb_forall in H4.
  specialize (H4 _ ltac:(by apply elem_of_list_In)). cbn [fst snd] in H4. rewrite !andb_true_iff, !bool_decide_eq_true in H4.
  destruct H4 as [[[Hd Hp] Hl] Hm]. split_and!; [done|done|]. clear -Hl Hm. revert qs Hl Hm.
  induction (tp_posts tp) as [|p ps IH]; intros [|q qs] Hl Hm; try done.
  cbn [zip zip_with forallb fst snd] in Hm. apply andb_true_iff in Hm as [Hm1 Hm2]. constructor; [by apply matches_spec|].
  apply IH; [|done]. cbn [length] in Hl. congruence.
Qed.
Lemma tw_check_new_spec w extra : tw_check_new w extra = true → ∀ tp tp' p q, tp ∈ first_source w → tp' ∈ extra →
  p ∈ tp_posts tp → q ∈ tp_posts tp' → tp_date tp = tp_date tp' → ¬ soft_match p q.
Proof.
  intros H6 tp tp' p q Htp Htp' Hp Hq Hd Hs. unfold tw_check_new in H6. rewrite forallb_forall in H6.
  specialize (H6 tp ltac:(by apply elem_of_list_In)). rewrite forallb_forall in H6. specialize (H6 tp' ltac:(by apply elem_of_list_In)).
  apply orb_true_iff in H6 as [H6%bool_decide_eq_true|H6]; [done|].
  rewrite forallb_forall in H6. specialize (H6 p ltac:(by apply elem_of_list_In)). rewrite forallb_forall in H6.
  specialize (H6 q ltac:(by apply elem_of_list_In)). apply matches_spec in Hs. by rewrite Hs in H6.
Qed.
Lemma hand_and_bank_check w extra :
  Forall (λ p, Forall (λ t, is_candidate t = false) (elements (tags (pi_comment p)))) (all_posts (first_source w)) →
  forallb mergeableb (all_posts (second_source w extra)) = true →
  NoDup ((all_posts (first_source w) ++ all_posts (second_source w extra)) ≫= fps_of) →
  forallb (λ tp, match tp_posts tp with [] => false | _ => true end) (first_source w ++ extra) = true →
  tw_check_twins w = true → tw_check_apart w = true → tw_check_new w extra = true → hand_and_bank w extra.
Proof.
  intros H0 H1 H2 H3 H4 H5 H6. split.
  - intros p t Hp Ht Hc. rewrite Forall_forall in H0. specialize (H0 p Hp). rewrite Forall_forall in H0.
    specialize (H0 t ltac:(by apply elem_of_elements)). apply is_candidate_spec in Hc. congruence.
  - intros p Hp. rewrite forallb_forall in H1. by apply mergeable_check, H1, elem_of_list_In.
  - by apply distinct_check.
  - intros tp Htp E. rewrite forallb_forall in H3. specialize (H3 tp ltac:(by apply elem_of_list_In)). by rewrite E in H3.
  - by apply tw_check_twins_spec.
  - by apply tw_check_apart_spec.
  - by apply tw_check_new_spec.
Qed.

(** Two payments written down by hand, one of which the bank reports too; a third
    only the bank knows. *)
Definition hd_savings : str := s2l "assets:savings".
Definition hd_h1 := ex_tp day1 (s2l "rainy days") [ex_post bank (-500) [s2l "mine"]; ex_post hd_savings 500 []].
Definition hd_h2 := ex_tp day1 (s2l "market, cash") [ex_post (s2l "assets:cash") (-300) []; ex_post food 300 []].
Definition hd_q1 := ex_post bank (-500) [s2l "fp-b1"].
Definition hd_q2 := tw_unk 500 (s2l "fp-b2").
Definition hd_b1 := ex_tp day1 (s2l "TFR 0001") [hd_q2; hd_q1].
Definition hd_b2 := ex_tp day2 (s2l "FEE") [ex_post bank (-7) [s2l "fp-b3"]; tw_unk 7 (s2l "fp-b4")].
Definition hd_w : paired := [(hd_h1, Some (hd_b1, [hd_q1; hd_q2])); (hd_h2, None)].
Definition hd_gen (n : nat) : str := [65 + N.of_nat n]%N.
Lemma hd_ok : hand_and_bank hd_w [hd_b2].
Proof. apply hand_and_bank_check; by_compute. Qed.

Lemma hd_gen_inj i k : hd_gen i = hd_gen k → i = k.
Proof. unfold hd_gen. intros [= H]. lia. Qed.
(** No tag of these postings begins with [fp-uuidb64-]. *)
Lemma hd_ids : new_ids hd_gen (all_posts (first_source hd_w) ++ all_posts (second_source hd_w [hd_b2])).
Proof.
  split; [exact hd_gen_inj|]. intros i p Hp Ht.
  assert (Forall (λ p, Forall (λ t, take 11 t ≠ s2l "fp-uuidb64-") (elements (tags (pi_comment p))))
    (all_posts (first_source hd_w) ++ all_posts (second_source hd_w [hd_b2]))) as F by by_compute.
  rewrite Forall_forall in F. specialize (F p Hp). rewrite Forall_forall in F.
  apply (F (s2l "fp-uuidb64-" ++ hd_gen i)); [by apply elem_of_elements|].
  change 11 with (length (s2l "fp-uuidb64-")). apply take_app.
Qed.
Definition hd_fp : list transaction_postings := (fpgen_trns default_order hd_gen 0 (first_source hd_w)).2.
Definition hd_view (tps : list transaction_postings) :=
  (λ tp, (t_description (ti_raw (tp_trn tp)), (λ p, (p_account (pi_raw p), elements (tags (pi_comment p)))) <$> tp_posts tp)) <$> tps.

(** The same in files. *)
Definition hd_l1 : ledger := into_ledger default_order (first_source hd_w).
Definition hd_l1' : ledger := into_ledger default_order hd_fp.
Definition hd_l2 : ledger := into_ledger default_order (second_source hd_w [hd_b2]).
Definition hd_out : list transaction_postings :=
  match build default_order (merge default_order (merge default_order merger_new hd_fp).1 (second_source hd_w [hd_b2])).1 with Ok l => l | _ => [] end.
Definition hd_E : env := ex_env [(s2l "H", hd_l1); (s2l "FP", hd_l1'); (s2l "B", hd_l2); (s2l "OUT", into_ledger default_order hd_out)].
Definition hd_world : world := World {[ s2l "hand" := s2l "H"; s2l "bank" := s2l "B" ]} ∅ [] [].
Definition hd_run := fpgen_cmd hd_E default_order hd_gen 0 [Path (s2l "hand")] hd_world.
Definition hd_run2 := merge_cmd hd_E default_order [Path (s2l "hand"); Path (s2l "bank")] None (Path (s2l "hand")) (steps hd_world hd_run.1).
Lemma hd_bank_file : journals hd_E hd_world [Path (s2l "bank")] [second_source hd_w [hd_b2]] hd_world.
Proof.
  assert (second_source hd_w [hd_b2] = transaction_postings_of <$> ledger_trns hd_l2) as E by by_compute.
  rewrite E. eapply journals_cons; [|..|constructor].
  - eapply reads_path; [done|vm_compute; reflexivity|vm_compute; reflexivity].
  - unfold supported. by_compute.
  - apply Forall_forall. by_compute.
Qed.
Lemma str_eqb_spec a b : str_eqb a b = true ↔ a = b.
Proof. apply bool_decide_eq_true. Qed.
(** A text that occurs once in the list is printed for one ledger only. *)
Lemma ex_print_inv c t L L' : (filter (λ e, e = t) (c.*1 ++ [s2l "?"]), ex_parse c t) = ([t], Some L') → ex_print c L = t → L = L'.
Proof.
  unfold ex_print, ex_parse. intros [= H1 H2] H3. subst.
  destruct (find (λ e, bool_decide (e.2 = L)) c) as [e|] eqn:Hf.
  - cbn [fmap option_fmap option_map default] in *. apply find_some in Hf as [Hin Hb]. apply bool_decide_eq_true in Hb as <-.
    clear -Hin H1 H2. induction c as [|x c IH]; [done|]. rewrite fmap_cons in H1. cbn [app find] in *. rewrite filter_cons in H1.
    destruct Hin as [->|Hin].
    + rewrite (proj2 (str_eqb_spec _ _) eq_refl) in H2. by injection H2.
    + case_decide as Hd.
      * exfalso. injection H1 as _ H1. assert (e.1 ∈ @nil str) as Hx; [|by apply elem_of_nil in Hx]. rewrite <- H1.
        apply elem_of_list_filter. split; [done|]. apply elem_of_app. left. apply elem_of_list_fmap. exists e. split; [done|]. by apply elem_of_list_In.
      * destruct (str_eqb x.1 e.1) eqn:Hs; [by apply str_eqb_spec in Hs|]. apply IH; [done| |done]. unfold id in H2. by rewrite Hs in H2.
  - exfalso. cbn [fmap option_fmap option_map default] in *. rewrite filter_app in H1. 
    destruct (find (λ e, str_eqb e.1 (s2l "?")) c) as [e|] eqn:Hf2; [|done]. apply find_some in Hf2 as [Hin Hb]. apply str_eqb_spec in Hb.
    assert (s2l "?" ∈ filter (λ e, e = s2l "?") c.*1) as Hx.
    { apply elem_of_list_filter. split; [done|]. apply elem_of_list_fmap. exists e. split; [done|]. by apply elem_of_list_In. }
    rewrite filter_cons_True in H1 by done. apply (f_equal length) in H1. rewrite app_length in H1.
    destruct (filter (λ e, e = s2l "?") c.*1) as [|y ys]; [by apply elem_of_nil in Hx|]. cbn [length] in H1. lia.
Qed.
Lemma hd_written : ∀ tps', fingerprints_added hd_gen (first_source hd_w) tps' →
  w_files (steps hd_world hd_run.1) !! s2l "hand" = Some (e_print hd_E (into_ledger default_order tps')) →
  e_parse hd_E (e_print hd_E (into_ledger default_order tps')) = Some (into_ledger default_order tps').
Proof.
  intros tps' _ H. assert (w_files (steps hd_world hd_run.1) !! s2l "hand" = Some (s2l "FP")) as E by (vm_compute; reflexivity).
  rewrite E in H. generalize dependent (into_ledger default_order tps'). intros L H.
  assert (L = hd_l1') as ->; [|vm_compute; reflexivity].
  apply (inj Some) in H. eapply ex_print_inv; [|symmetry; exact H]. vm_compute. reflexivity.
Qed.
Lemma hd_writable : ∀ tp, tp ∈ first_source hd_w → comments_writable tp ∧ source_tag tp = None.
Proof.
  intros tp Htp. split; [revert tp Htp; apply writable_compute; by_compute|].
  assert (Forall (λ tp, source_tag tp = None) (first_source hd_w)) as F by by_compute. rewrite Forall_forall in F. by apply F.
Qed.

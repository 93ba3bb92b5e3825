(** C104, C105: whole histories of merges. *)
From Verif Require Import Base Types CommentModel MergeModel SpecBase BaseProofs MergeSpec MergeClaims
  MergeProofs MergeLemmas CommentExamples MergeExamples HistoryClaims History HistoryStep HistoryOrder.
From Coq Require Import Lia.
Local Open Scope nat_scope.

(** C104: after any number of merges, every posting of the journal is what the input
    postings merged into it say, in order, and every input posting is merged into one
    posting of the journal, unless its transaction was handed back. *)
Theorem C104_what_a_journal_says runs m ho out :
  merge_run merger_new runs m → hash_order_ok ho → build ho m = Ok out →
  ∃ back loc, accounts_for (run_set <$> runs) back loc out ∧
    ∀ r rn, runs !! r = Some rn → Forall2 returned_unmerged (handed (back r) (run_set rn)) (run_unmerged rn).
Proof. exact (history_accounts runs m ho out). Qed.
Print Assumptions C104_what_a_journal_says.

(** Nothing is left open by the description of a posting. *)
Theorem C104_description_is_complete ps q q' : composed ps q → composed ps q' → q = q'.
Proof. exact (composed_unique ps q q'). Qed.
Print Assumptions C104_description_is_complete.

(** Three merges: the second changes an account, merges softly and adds a transaction,
    the third is handed back. *)
Definition ex_h1 : merger := (merge default_order ex_m0 ex_s1).1.
Definition ex_amb : list transaction_postings := [ex_tp day1 (s2l "shop?") [ex_post bank (-500) [s2l "fp-y1"]]].
Definition ex_back : list transaction_postings := match (merge reverse_order ex_h1 ex_amb).2 with Ok un => un | _ => [] end.
Definition ex_h3 : merger := (merge reverse_order ex_h1 ex_amb).1.
Definition ex_runs : list (hash_order * list transaction_postings * list transaction_postings) :=
  [(default_order, ex_s0, []); (default_order, ex_s1, []); (reverse_order, ex_amb, ex_back)].
Definition ex_shown : list (str * list str) :=
  match build default_order ex_h3 with
  | Ok out => (λ tp, (t_description (ti_raw (tp_trn tp)), (λ p, p_account (pi_raw p)) <$> tp_posts tp)) <$> out
  | _ => []
  end.
Example C104_ex : merge_run merger_new ex_runs ex_h3 ∧ is_Some (ex_back !! 0) ∧
  (∃ out, build default_order ex_h3 = Ok out) ∧
  ex_shown =
    [(s2l "shop", [bank; food]); (s2l "market", [bank; food]); (s2l "cafe", [bank; food; s2l "expenses:tip"]); (s2l "bus", [bank])].
Proof.
  split_and!.
  - eapply mrun_cons; [apply default_order_ok|apply merge_eq; vm_compute; reflexivity|].
    eapply mrun_cons; [apply default_order_ok|apply merge_eq; vm_compute; reflexivity|].
    eapply mrun_cons; [apply reverse_order_ok|apply merge_eq; vm_compute; reflexivity|]. constructor.
  - vm_compute. eauto.
  - destruct (build default_order ex_h3) as [out| |] eqn:E; [by exists out|vm_compute in E; discriminate E..].
  - vm_compute. reflexivity.
Qed.

(** C105: two orders of the same inputs, both accepted, give the same journal but for
    the order of merging, if inputs of different sets are matched by fingerprints. *)
Theorem C105_order_of_inputs runs runs' m m' ho ho' out out' :
  explicit runs.*2 → runs.*2 ≡ₚ runs'.*2 →
  clean_run merger_new runs m → clean_run merger_new runs' m' → hash_order_ok ho → hash_order_ok ho' →
  build ho m = Ok out → build ho' m' = Ok out' → same_up_to_order out out'.
Proof. exact (order_of_inputs runs runs' m m' ho ho' out out'). Qed.
Print Assumptions C105_order_of_inputs.

(** What the order of merging cannot change. *)
Theorem C105_order_free ps ps' q q' : ps ≡ₚ ps' → composed ps q → composed ps' q' → order_free ps q q'.
Proof. exact (perm_agree ps ps' q q'). Qed.
Print Assumptions C105_order_free.

(** Inputs in two orders: the accounts differ, and with them the result. *)
Definition ex_oa : list transaction_postings := [ex_tp day1 (s2l "a") [ex_post bank (-500) [s2l "fp-1"]; ex_post food 500 [s2l "fp-2"]]].
Definition ex_ob : list transaction_postings :=
  [ex_tp day1 (s2l "b") [ex_post (s2l "expenses:fun") 500 [s2l "fp-2"; s2l "fp-4"]; ex_post food 20 [s2l "fp-3"]]; ex_tp day2 (s2l "c") [ex_post bank 500 [s2l "fp-5"]]].
Definition ex_hist (sets : list (list transaction_postings)) : merger := foldl (λ m s, (merge default_order m s).1) merger_new sets.
Definition ex_out (sets : list (list transaction_postings)) : list transaction_postings := match build default_order (ex_hist sets) with Ok out => out | _ => [] end.
Definition ex_clean (sets : list (list transaction_postings)) : Prop :=
  clean_run merger_new ((λ s, (default_order, s)) <$> sets) (ex_hist sets) ∧ build default_order (ex_hist sets) = Ok (ex_out sets).
Ltac clean := split; [repeat (eapply run_cons; [apply default_order_ok|apply merge_eq; vm_compute; reflexivity|]); constructor|vm_compute; reflexivity].

(** Checking [explicit] on literals. *)
Definition explicitb (sets : list (list transaction_postings)) : bool :=
  let ts := mjoin (imap (λ r s, (λ tp, (r, tp)) <$> s) sets) in
  forallb (λ a, forallb (λ b, bool_decide (a.1 = b.1) || negb (bool_decide (tp_date a.2 = tp_date b.2)) ||
    forallb (λ p, forallb (λ q, negb (matches p q) || share_fpb p q) (tp_posts b.2)) (tp_posts a.2)) ts) ts.
Lemma explicitb_ok sets : explicitb sets = true → explicit sets.
Proof.
  intros H s s' rest tp tp' p p' HU Htp Htp' Hp Hp' Hd Hm.
  symmetry in HU. apply Permutation_inj in HU as (_ & f & Hf & HU).
  assert (∀ r s tp, sets !! r = Some s → tp ∈ s → (r, tp) ∈ mjoin (imap (λ r s, (λ tp, (r, tp)) <$> s) sets)) as Hin.
  { clear. intros r s tp Hr Htp. apply elem_of_list_join. exists ((λ tp, (r, tp)) <$> s). split.
    - apply elem_of_list_fmap. eauto.
    - apply elem_of_lookup_imap. eauto. }
  pose proof (HU 0) as H0. pose proof (HU 1) as H1. cbn in H0, H1. symmetry in H0, H1.
  unfold explicitb in H. cbv zeta in H. rewrite forallb_forall in H. specialize (H (f 0, tp)).
  rewrite <- elem_of_list_In, forallb_forall in H. specialize (H (Hin _ _ _ H0 Htp) (f 1, tp')). rewrite <- elem_of_list_In in H.
  specialize (H (Hin _ _ _ H1 Htp')). cbn [fst snd] in H.
  rewrite bool_decide_eq_false_2 in H. 2:{ intros E. by apply Hf in E. }
  rewrite bool_decide_eq_true_2 in H by done. cbn [orb negb] in H.
  rewrite forallb_forall in H. specialize (H p). rewrite <- elem_of_list_In, forallb_forall in H. specialize (H Hp p').
  rewrite <- elem_of_list_In in H. specialize (H Hp'). apply orb_true_iff in H as [H|H]; [|by apply share_fpb_spec].
  apply matches_spec in Hm. by rewrite Hm in H.
Qed.

Example C105_ex : explicit [ex_oa; ex_ob] ∧ ex_clean [ex_oa; ex_ob] ∧ ex_clean [ex_ob; ex_oa] ∧
  (λ tp, (λ p, p_account (pi_raw p)) <$> tp_posts tp) <$> ex_out [ex_oa; ex_ob] = [[bank; food; food]; [bank]] ∧
  (λ tp, (λ p, p_account (pi_raw p)) <$> tp_posts tp) <$> ex_out [ex_ob; ex_oa] = [[s2l "expenses:fun"; food; bank]; [bank]].
Proof. split_and!; [by apply explicitb_ok; vm_compute|clean|clean|vm_compute; reflexivity|vm_compute; reflexivity]. Qed.

(** Whether the inputs are accepted does depend on their order: the third set says that
    what the first two contain is the same posting. *)
Definition ex_o1 : list transaction_postings := [ex_tp day1 (s2l "a") [ex_post bank (-500) [s2l "fp-1"]]].
Definition ex_o2 : list transaction_postings := [ex_tp day1 (s2l "b") [ex_post bank (-300) [s2l "fp-2"]]].
Definition ex_o3 : list transaction_postings := [ex_tp day1 (s2l "c") [ex_post bank (-500) [s2l "fp-1"; s2l "fp-2"]]].
Theorem C105_acceptance_depends_on_order : explicit [ex_o3; ex_o1; ex_o2] ∧ ex_clean [ex_o3; ex_o1; ex_o2] ∧
  ∃ m e, clean_run merger_new [(default_order, ex_o1); (default_order, ex_o2)] m ∧ merge default_order m ex_o3 = (m, Err e).
Proof.
  split_and!; [by apply explicitb_ok; vm_compute|clean|]. exists (ex_hist [ex_o1; ex_o2]).
  eexists. split; [|vm_compute; reflexivity].
  repeat (eapply run_cons; [apply default_order_ok|apply merge_eq; vm_compute; reflexivity|]). constructor.
Qed.
Print Assumptions C105_acceptance_depends_on_order.

(** Without [explicit], the order decides what is merged together: a posting whose account is
    unknown goes to the first one that it soft matches. *)
Definition ex_o4 : list transaction_postings := [ex_tp day1 (s2l "a") [ex_post bank 500 [s2l "fp-1"]]].
Definition ex_o5 : list transaction_postings := [ex_tp day1 (s2l "b") [ex_post food 500 [s2l "fp-2"]]].
Definition ex_o6 : list transaction_postings := [ex_tp day1 (s2l "c") [ex_post unknown 500 [s2l "fp-3"; s2l "unknown-account"]]].
Theorem C105_soft_matches_depend_on_order : ex_clean [ex_o4; ex_o6; ex_o5] ∧ ex_clean [ex_o5; ex_o6; ex_o4] ∧
  ¬ same_up_to_order (ex_out [ex_o4; ex_o6; ex_o5]) (ex_out [ex_o5; ex_o6; ex_o4]).
Proof.
  split_and!; [clean|clean|]. intros (out & Hp & HF).
  assert (Exists (λ tp, Exists (λ q, has_tag q (s2l "fp-1") ∧ has_tag q (s2l "fp-3")) (tp_posts tp)) (ex_out [ex_o4; ex_o6; ex_o5])) as H1.
  { unfold has_tag. by_compute. }
  assert (¬ Exists (λ tp, Exists (λ q, has_tag q (s2l "fp-1") ∧ has_tag q (s2l "fp-3")) (tp_posts tp)) (ex_out [ex_o5; ex_o6; ex_o4])) as H2.
  { unfold has_tag. by_compute. }
  apply H2. rewrite <- Hp. apply Exists_exists in H1 as (tp & Htp & Hq). apply Exists_exists in Hq as (q & Hq & Ht1 & Ht3).
  apply elem_of_list_lookup in Htp as [a Ha]. destruct (Forall2_lookup_l _ _ _ _ _ HF Ha) as (tp' & Ha' & ps & Hps & HF').
  apply elem_of_list_lookup in Hq as [b Hb]. destruct (Forall2_lookup_l _ _ _ _ _ HF' Hb) as (q' & Hb' & HR).
  apply Exists_exists. exists tp'. split; [by eapply elem_of_list_lookup_2|]. apply Exists_exists. exists q'.
  split; [rewrite <- Hps; by eapply elem_of_list_lookup_2|].
  pose proof (same_inputs_fp q q' HR) as Hfp. split; apply Hfp; (split; [by eexists|done]).
Qed.
Print Assumptions C105_soft_matches_depend_on_order.

(** A journal kept over two months. *)
From Verif Require Import MergeClaims.
From stdpp Require Import list gmap.
From Verif Require Import Base Types SpecBase BaseProofs CommentModel MergeModel MergeLemmas EditClaims WindowClaims KeptClaims
  RulesModel CommentExamples MergeExamples RulesExamples ImportExamples WorkflowExamples.
Local Open Scope nat_scope.

Definition newsb (parts : list (list transaction_postings)) (seen w : list nat) (J : list transaction_postings) : bool :=
  forallb (λ tp, forallb (λ t, forallb (λ p, forallb (λ q,
    forallb (λ f, negb (bool_decide (f ∈ fps_of p))) (fps_of q) &&
    (negb (bool_decide (tp_date t = tp_date tp)) || negb (matches q p))) (tp_posts t)) (tp_posts tp)) J) (window parts (unseen seen w)).
Lemma news_check parts seen w J : newsb parts seen w J = true → news parts seen w J.
Proof.
  unfold newsb. intros H tp t p q Htp Ht Hp Hq. rewrite forallb_forall in H. specialize (H tp (proj1 (elem_of_list_In _ _) Htp)).
  rewrite forallb_forall in H. specialize (H t (proj1 (elem_of_list_In _ _) Ht)).
  rewrite forallb_forall in H. specialize (H p (proj1 (elem_of_list_In _ _) Hp)).
  rewrite forallb_forall in H. specialize (H q (proj1 (elem_of_list_In _ _) Hq)).
  apply andb_true_iff in H as [H1 H2]. split.
  - intros (f & Hfq & Hfp). rewrite forallb_forall in H1. apply fps_of_spec in Hfq, Hfp.
    specialize (H1 f (proj1 (elem_of_list_In _ _) Hfq)). apply negb_true_iff, bool_decide_eq_false in H1. done.
  - intros Hd Hs. apply orb_true_iff in H2 as [H2|H2]; apply negb_true_iff in H2.
    + by apply bool_decide_eq_false in H2.
    + apply matches_spec in Hs. congruence.
Qed.

(** The journal starts with a payment in cash. *)
Definition kp_hand : list transaction_postings :=
  [ex_tp day2 (s2l "kiosk") [ex_post (s2l "assets:cash") (-100) [s2l "fp-h1"]; ex_post food 100 [s2l "fp-h2"]]].
Definition kp_m1 : merger := (merge default_order (merge default_order merger_new kp_hand).1 [ex_t1; ex_t2]).1.
Definition kp_out1 : list transaction_postings := rok (build default_order kp_m1) [].
(** The accounts, descriptions and the dates of the first day are changed, and a
    payment in cash is added. *)
Definition kp_J1 : list transaction_postings := (wf_edit <$> kp_out1) ++
  [ex_tp day2 (s2l "kiosk") [ex_post (s2l "assets:cash") (-200) [s2l "fp-h3"]; ex_post food 200 [s2l "fp-h4"]]].
Definition kp_m2 : merger := (merge reverse_order (merge default_order merger_new kp_J1).1 [ex_t1; ex_t2; ex_t3]).1.
Definition kp_out2 : list transaction_postings := rok (build default_order kp_m2) [].

Lemma kp_J1_ok : journal_ok kp_J1.
Proof. apply journal_check; [vm_compute; reflexivity|by_compute|vm_compute; reflexivity]. Qed.
Lemma kp_edited : edited kp_out1 kp_J1.
Proof.
  exists (λ a b, (a, b)). split_and!; cbn [fst snd]; [|done|by intros ? ? ? ? ? ? ? ? _ _ _ _ [= -> ->]].
  intros a b tp p Ha Hb. exists (wf_edit tp). eexists. split_and!.
  - unfold kp_J1. apply lookup_app_l_Some. rewrite list_lookup_fmap, Ha. done.
  - cbn [wf_edit tp_posts ex_tp]. rewrite list_lookup_fmap, Hb. reflexivity.
  - intros f [Hf Ht]. split; [done|]. unfold has_tag in *. cbn [pi_comment tags]. apply elem_of_union. by right.
Qed.
Lemma kp_kept1 : kept wp_parts [0] kp_out1.
Proof.
  refine (kept_merge wp_parts [] kp_hand [0] default_order default_order default_order _ kp_m1 [] [] kp_out1 _ _ _
    default_order_ok default_order_ok default_order_ok _ _ _).
  - apply kept_start. apply journal_check; [vm_compute; reflexivity|by_compute|vm_compute; reflexivity].
  - by_compute.
  - apply news_check. vm_compute. reflexivity.
  - apply merge_eq. by_compute.
  - apply merge_eq. by_compute.
  - by_compute.
Qed.
Lemma kp_kept2 : kept wp_parts [0] kp_J1.
Proof. exact (kept_edit _ _ _ _ kp_kept1 kp_edited kp_J1_ok). Qed.
Lemma kp_news : news wp_parts [0] [0; 1] kp_J1.
Proof. apply news_check. vm_compute. reflexivity. Qed.
Lemma kp_kept3 : kept wp_parts [0; 1] kp_out2.
Proof.
  refine (kept_merge wp_parts [0] kp_J1 [0; 1] default_order reverse_order default_order _ kp_m2 [] [] kp_out2 kp_kept2 _ kp_news
    default_order_ok reverse_order_ok default_order_ok _ _ _).
  - by_compute.
  - apply merge_eq. by_compute.
  - apply merge_eq. by_compute.
  - by_compute.
Qed.
Lemma kp_result : (λ tp, (tp_date tp, t_description (ti_raw (tp_trn tp)))) <$> kp_out2 =
  [(day2, s2l "mine"); (day2, s2l "kiosk"); (day2, s2l "cafe"); ((2020%Z, 1%N, 3%N), s2l "mine"); ((2020%Z, 1%N, 3%N), s2l "mine")].
Proof. vm_compute. reflexivity. Qed.
Lemma kp_nodup : NoDup [0; 1].
Proof. by_compute. Qed.
Lemma kp_rules : ∃ J', update_transactions rx_X default_order rx_T 2 kp_out2 = Some (Ok J') ∧ map rx_shape J' ≠ map rx_shape kp_out2.
Proof. eexists. apply conj; [vm_compute; reflexivity|]. vm_compute. discriminate. Qed.

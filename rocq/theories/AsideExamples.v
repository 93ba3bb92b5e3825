(** Examples for C139. *)
From Verif Require Import MergeClaims.
From Verif Require Import Base Types SpecBase BaseProofs CommentModel MergeModel CmdModel MergeSpec
  CommentClaims CmdClaims CommentExamples MergeExamples CmdExamples HeaderClaims MergeProofs MergeLemmas ReRunExamples CmdProofs AsideClaims.
Local Open Scope nat_scope.

Definition unconcerned_b (old s : list transaction_postings) : bool :=
  forallb (λ t, forallb (λ tp, forallb (λ q, forallb (λ p,
    negb (share_fpb q p) && negb (bool_decide (tp_date t = tp_date tp) && matches q p)) (tp_posts tp)) (tp_posts t)) s) old.
Lemma unconcerned_compute old s : unconcerned_b old s = true → unconcerned old s.
Proof.
  unfold unconcerned_b. rewrite forallb_forall. intros H t q tp p Ht Hq Htp Hp.
  specialize (H t (proj1 (elem_of_list_In _ _) Ht)). rewrite forallb_forall in H.
  specialize (H tp (proj1 (elem_of_list_In _ _) Htp)). rewrite forallb_forall in H.
  specialize (H q (proj1 (elem_of_list_In _ _) Hq)). rewrite forallb_forall in H.
  specialize (H p (proj1 (elem_of_list_In _ _) Hp)). apply andb_true_iff in H as [H1 H2].
  apply negb_true_iff in H1, H2. split.
  - rewrite <- share_fpb_spec. by rewrite H1.
  - intros E. rewrite <- matches_spec. rewrite bool_decide_eq_true_2 in H2 by done. simpl in H2. by rewrite H2.
Qed.

(** An older payment, and one on a day of the statement that is not like any in it. *)
Definition as_o1 := ex_tp (2019%Z, 12%N, 30%N) (s2l "gift") [ex_post bank (-500) [s2l "fp-o1"]; ex_post food 500 [s2l "fp-o2"]].
Definition as_o2 := ex_tp day2 (s2l "train") [ex_post bank (-999) [s2l "fp-o3"]; ex_post (s2l "expenses:travel") 999 [s2l "fp-o4"]].
Definition as_old : list transaction_postings := [as_o2; as_o1].
Definition as_read (l : list transaction_postings) : list transaction_postings := transaction_postings_of <$> ledger_trns (into_ledger default_order l).
Definition as_m0 : merger := (merge default_order merger_new ex_s0).1.
Definition as_m0' : merger := (merge reverse_order merger_new (as_old ++ ex_s0)).1.
Definition as_built (m : merger) : list transaction_postings := match build default_order m with Ok l => l | _ => [] end.
Definition as_out := as_built (merge default_order as_m0 ex_s1).1.
Definition as_out' := as_built (merge default_order as_m0' ex_s1).1.
Lemma as_out_order : tp_trn <$> as_out' = tp_trn <$> [as_o1; ex_t1; ex_t2; as_o2; ex_t3; ex_u3].
Proof. vm_compute. reflexivity. Qed.

(** As files. *)
Definition as_E : env := ex_env [(s2l "CUR", into_ledger default_order ex_s0); (s2l "WHOLE", into_ledger default_order (as_old ++ ex_s0));
  (s2l "S", into_ledger default_order ex_s1); (s2l "OUT", into_ledger default_order as_out); (s2l "OUTWHOLE", into_ledger default_order as_out')].
Definition as_w : world := World {[ s2l "cur" := s2l "CUR"; s2l "whole" := s2l "WHOLE"; s2l "s" := s2l "S" ]} ∅ [] [].
Lemma as_supported l : supported (into_ledger default_order l).
Proof. apply ledger_supported. Qed.
Lemma as_sourceless : Forall (λ l, Forall (λ t, source_tag (transaction_postings_of t) = None) (ledger_trns (into_ledger default_order l)))
  [ex_s0; as_old ++ ex_s0; ex_s1].
Proof. by_compute. Qed.
Lemma as_journals : journals as_E as_w [Path (s2l "cur"); Path (s2l "s")] [as_read ex_s0; as_read ex_s1] as_w ∧
  journals as_E as_w [Path (s2l "whole"); Path (s2l "s")] [as_read (as_old ++ ex_s0); as_read ex_s1] as_w.
Proof.
  pose proof as_sourceless as H. rewrite !Forall_cons in H. destruct H as (T0 & T1 & T2 & _).
  rewrite Forall_forall in T0. rewrite Forall_forall in T1. rewrite Forall_forall in T2.
  assert (journals as_E as_w [Path (s2l "s")] [as_read ex_s1] as_w) as HS.
  { refine (journals_cons _ _ _ (into_ledger default_order ex_s1) as_w _ _ _ _ (as_supported _) T2 _); [|constructor].
    apply (reads_path _ _ _ (s2l "S")); [done|vm_compute; reflexivity|vm_compute; reflexivity]. }
  split.
  - refine (journals_cons _ _ _ (into_ledger default_order ex_s0) as_w _ _ _ _ (as_supported _) T0 HS).
    apply (reads_path _ _ _ (s2l "CUR")); [done|vm_compute; reflexivity|vm_compute; reflexivity].
  - refine (journals_cons _ _ _ (into_ledger default_order (as_old ++ ex_s0)) as_w _ _ _ _ (as_supported _) T1 HS).
    apply (reads_path _ _ _ (s2l "WHOLE")); [done|vm_compute; reflexivity|vm_compute; reflexivity].
Qed.
Lemma as_read_app : as_read (as_old ++ ex_s0) = as_read as_old ++ as_read ex_s0.
Proof. unfold as_read, into_ledger. vm_compute. reflexivity. Qed.

(** C140: inputs that do not concern each other can be merged in any order. *)
From Verif Require Import MergeClaims.
From Verif Require Import Base Types SpecBase BaseProofs CommentModel MergeModel CmdModel CmdProofs
  CommentClaims CmdClaims CommentExamples MergeExamples CmdExamples HeaderClaims AsideClaims AsideExamples AnyOrderClaims AnyOrder.
Local Open Scope nat_scope.

(** C140: sets of transactions, each of which can be merged on its own, and no two of
    which concern each other, can be merged one after the other; nothing is handed back,
    and the journal has all their transactions as they are. *)
Theorem C140_merges ho sets : hash_order_ok ho → apart sets → each_merges sets →
  ∃ m, merges ho merger_new sets [] m ∧ ∀ hb, hash_order_ok hb → ∃ out, build hb m = Ok out ∧ all_in_order sets out.
Proof. exact (any_order ho sets). Qed.
Print Assumptions C140_merges.

(** The order in which they are merged decides only the order of transactions of one
    date. *)
Theorem C140_any_order ho ho' sets sets' : hash_order_ok ho → hash_order_ok ho' → apart sets → each_merges sets → sets ≡ₚ sets' →
  ∃ m m', merges ho merger_new sets [] m ∧ merges ho' merger_new sets' [] m' ∧
    ∀ hb hb', hash_order_ok hb → hash_order_ok hb' → ∃ out out', build hb m = Ok out ∧ build hb' m' = Ok out' ∧
      out ≡ₚ out' ∧ (own_dates sets → out' = out).
Proof. exact (any_order_twice ho ho' sets sets'). Qed.
Print Assumptions C140_any_order.

(** So the merge command writes the same text for its input files in any order, if no
    date has transactions of two files. *)
Theorem C140_command E ho ho' paths paths' o o' w w0 tpss es es' r r' : hash_order_ok ho → hash_order_ok ho' →
  journals E w (Path <$> paths) tpss w0 → paths ≡ₚ paths' → apart tpss → each_merges tpss → own_dates tpss →
  writable E o → writable E o' →
  merge_cmd E ho (Path <$> paths) None o w = (es, r) → merge_cmd E ho' (Path <$> paths') None o' w = (es', r') →
  r = Ok tt ∧ r' = Ok tt ∧ ∃ text, holds w (steps w es) o text ∧ holds w (steps w es') o' text.
Proof. exact (any_order_command E ho ho' paths paths' o o' w w0 tpss es es' r r'). Qed.
Print Assumptions C140_command.

(** Checking the conditions on literals. *)
Fixpoint apart_b (sets : list (list transaction_postings)) : bool :=
  match sets with [] => true | s :: l => forallb (λ t, unconcerned_b s t && unconcerned_b t s) l && apart_b l end.
Lemma apart_compute sets : apart_b sets = true → apart sets.
Proof.
  induction sets as [|s l IH]; intros H i k a b Hi Hk Hne; [done|]. simpl in H. apply andb_true_iff in H as [H1 H2].
  rewrite forallb_forall in H1.
  destruct i as [|i], k as [|k]; simpl in Hi, Hk; [done|..].
  - injection Hi as ->. apply elem_of_list_lookup_2, elem_of_list_In, H1, andb_true_iff in Hk as [H _]. by apply unconcerned_compute.
  - injection Hk as ->. apply elem_of_list_lookup_2, elem_of_list_In, H1, andb_true_iff in Hi as [_ H]. by apply unconcerned_compute.
  - eapply (IH H2 i k); try done. congruence.
Qed.
Fixpoint own_dates_b (sets : list (list transaction_postings)) : bool :=
  match sets with [] => true | s :: l => forallb (λ t, forallb (λ a, forallb (λ b, negb (bool_decide (tp_date a = tp_date b))) t) s) l && own_dates_b l end.
Lemma own_dates_compute sets : own_dates_b sets = true → own_dates sets.
Proof.
  induction sets as [|s l IH]; intros H i k x y a b Hi Hk Ha Hb E; [done|]. simpl in H. apply andb_true_iff in H as [H1 H2].
  rewrite forallb_forall in H1.
  assert (∀ t a b, t ∈ l → a ∈ s → b ∈ t → tp_date a ≠ tp_date b) as Hd.
  { intros t a' b' Ht Ha' Hb'. apply elem_of_list_In, H1 in Ht. rewrite forallb_forall in Ht. apply elem_of_list_In, Ht in Ha'.
    rewrite forallb_forall in Ha'. apply elem_of_list_In, Ha', negb_true_iff, bool_decide_eq_false in Hb'. done. }
  destruct i as [|i], k as [|k]; simpl in Hi, Hk; [done|..].
  - injection Hi as ->. apply elem_of_list_lookup_2 in Hk. by destruct (Hd y a b).
  - injection Hk as ->. apply elem_of_list_lookup_2 in Hi. by destruct (Hd x b a).
  - f_equal. by eapply (IH H2 i k x y a b).
Qed.

(** Three inputs, given in two orders. *)
Definition ao_late := ex_tp (2020%Z, 3%N, 1%N) (s2l "gift") [ex_post bank (-500) [s2l "fp-p1"]; ex_post food 500 [s2l "fp-p2"]].
Definition ao_sets : list (list transaction_postings) := [[ao_late]; ex_s0; [as_o1]].
Example C140_ex : apart ao_sets ∧ each_merges ao_sets ∧ own_dates ao_sets.
Proof.
  split; [apply apart_compute; vm_compute; reflexivity|]. split; [|apply own_dates_compute; vm_compute; reflexivity].
  intros s Hs. exists default_order, (merge default_order merger_new s).1. split; [exact default_order_ok|]. apply merge_eq.
  unfold ao_sets in Hs. rewrite !elem_of_cons, elem_of_nil in Hs. destruct Hs as [->|[->|[->|[]]]]; by_compute.
Qed.
(** As files. *)
Definition ao_out : list transaction_postings := [as_o1; ex_t1; ex_t2; ex_t3; ao_late].
Definition ao_E : env := ex_env [(s2l "L", into_ledger default_order [ao_late]); (s2l "J", into_ledger default_order ex_s0);
  (s2l "O", into_ledger default_order [as_o1]); (s2l "OUT", into_ledger default_order ao_out)].
Definition ao_w : world := World {[ s2l "l" := s2l "L"; s2l "j" := s2l "J"; s2l "o" := s2l "O" ]} ∅ [] [].
Lemma ao_sourceless : Forall (λ l, Forall (λ t, source_tag (transaction_postings_of t) = None) (ledger_trns (into_ledger default_order l))) ao_sets.
Proof. by_compute. Qed.
Example C140_command_ex :
  journals ao_E ao_w (Path <$> [s2l "l"; s2l "j"; s2l "o"]) (as_read <$> ao_sets) ao_w ∧ [s2l "l"; s2l "j"; s2l "o"] ≡ₚ [s2l "o"; s2l "l"; s2l "j"] ∧
  apart (as_read <$> ao_sets) ∧ each_merges (as_read <$> ao_sets) ∧ own_dates (as_read <$> ao_sets) ∧ (∀ f, writable ao_E f) ∧
  w_files (steps ao_w (merge_cmd ao_E default_order (Path <$> [s2l "o"; s2l "l"; s2l "j"]) None (Path (s2l "out")) ao_w).1) !! s2l "out" = Some (s2l "OUT").
Proof.
  split_and!.
  - pose proof ao_sourceless as H. unfold ao_sets in H |- *. rewrite !Forall_cons in H. destruct H as (T0 & T1 & T2 & _).
    rewrite Forall_forall in T0. rewrite Forall_forall in T1. rewrite Forall_forall in T2.
    refine (journals_cons _ _ _ (into_ledger default_order [ao_late]) ao_w _ _ _ _ (as_supported _) T0 _); [|
      refine (journals_cons _ _ _ (into_ledger default_order ex_s0) ao_w _ _ _ _ (as_supported _) T1 _); [|
      refine (journals_cons _ _ _ (into_ledger default_order [as_o1]) ao_w _ _ _ _ (as_supported _) T2 _); [|constructor]]].
    + apply (reads_path _ _ _ (s2l "L")); [done|vm_compute; reflexivity|vm_compute; reflexivity].
    + apply (reads_path _ _ _ (s2l "J")); [done|vm_compute; reflexivity|vm_compute; reflexivity].
    + apply (reads_path _ _ _ (s2l "O")); [done|vm_compute; reflexivity|vm_compute; reflexivity].
  - by_compute.
  - apply apart_compute. vm_compute. reflexivity.
  - assert (Forall (λ s, (merge default_order merger_new s).2 = Ok []) (as_read <$> ao_sets)) as H by by_compute.
    intros s Hs. exists default_order, (merge default_order merger_new s).1. split; [exact default_order_ok|]. apply merge_eq.
    rewrite Forall_forall in H. by apply H.
  - apply own_dates_compute. vm_compute. reflexivity.
  - by intros [].
  - by_compute.
Qed.
(** If they do concern each other, the order can decide more: here which of two
    payments that are taken for the same gives the description. *)
Theorem C140_apart_needed : ∃ s t m m' out out',
  each_merges [s; t] ∧ merges default_order merger_new [s; t] [] m ∧ merges default_order merger_new [t; s] [] m' ∧
  build default_order m = Ok out ∧ build default_order m' = Ok out' ∧ ¬ out ≡ₚ out'.
Proof.
  exists [ex_u3], [ex_tp day2 (s2l "tram") [ex_post bank (-250) [s2l "fp-o5"]]]. eexists _, _, _, _.
  split. { intros s Hs. exists default_order, (merge default_order merger_new s).1. split; [exact default_order_ok|]. apply merge_eq.
    rewrite !elem_of_cons, elem_of_nil in Hs. destruct Hs as [->|[->|[]]]; by_compute. }
  split. { do 2 (change (@nil transaction_postings) with (@nil transaction_postings ++ []); econstructor; [apply merge_eq; by_compute|]). constructor. }
  split. { do 2 (change (@nil transaction_postings) with (@nil transaction_postings ++ []); econstructor; [apply merge_eq; by_compute|]). constructor. }
  split; [vm_compute; reflexivity|]. split; [vm_compute; reflexivity|]. by_compute.
Qed.
Print Assumptions C140_apart_needed.

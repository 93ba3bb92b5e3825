(** Moving dates (C145).  The vocabulary is in RedateClaims.v. *)
From Verif Require Import MergeClaims.
From Verif Require Import Base Types SpecBase BaseProofs CommentModel MergeModel CmdModel MergeSpec CommentExamples MergeExamples ImportExamples CmdClaims CmdExamples
  HeaderClaims RedateClaims Redate RedateCmd AsideExamples.
From Coq Require Import Lia.
Local Open Scope nat_scope.

(** C145: if the dates are changed everywhere, such that those that occur stay in the same
    order, then every merge hands back the same transactions (bar the candidate tags it
    adds), or fails, with the old and the new dates alike, and the journal built is the
    same one, in the same order, with the new dates. *)
Theorem C145_redated D f m m' ho ho' tps : keeps_order D f →
  hash_order_ok ho → hash_order_ok ho' → made_redated D f m m' → only_days D tps →
  ((∃ un un', (merge ho m tps).2 = Ok un ∧ (merge ho' m' (redate f <$> tps)).2 = Ok un' ∧
     Forall2 (λ u u', equal_but_candidates (redate f u) u') un un') ∨
   (∃ e e', (merge ho m tps).2 = Err e ∧ (merge ho' m' (redate f <$> tps)).2 = Err e')) ∧
  build ho' m' = rmap (λ out : list transaction_postings, redate f <$> out) (build ho m).
Proof. intros Hk. exact (c145 D f Hk m m' ho ho' tps). Qed.
Print Assumptions C145_redated.

(** The merge command, on files that are the same but for the dates: it succeeds on
    both or on neither; and the files it writes are the same but for the dates. *)
Theorem C145_command D f E ho ho2 inputs inputs2 um um2 output output2 w w2 tpss w0 w20 es es2 r r2 :
  keeps_order D f → hash_order_ok ho → hash_order_ok ho2 → only_days D (mjoin tpss) →
  journals E w inputs tpss w0 → journals E w2 inputs2 (redate_inputs f tpss) w20 →
  (is_Some um ↔ is_Some um2) → um ≠ Some Stdio → um2 ≠ Some Stdio → um ≠ Some output → um2 ≠ Some output2 →
  (∀ f, um = Some f → writable E f) → (∀ f, um2 = Some f → writable E f) → writable E output → writable E output2 →
  merge_cmd E ho inputs um output w = (es, r) → merge_cmd E ho2 inputs2 um2 output2 w2 = (es2, r2) →
  (r = Ok tt ↔ r2 = Ok tt) ∧
  (r = Ok tt → ∃ out un un2 back back2,
     holds w (steps w es) output (e_print E (into_ledger ho out)) ∧
     holds w2 (steps w2 es2) output2 (e_print E (into_ledger ho (redate f <$> out))) ∧
     (* what is handed back has the name of the file it is from *)
     Forall2 (λ u u', equal_but_candidates (redate f u) u') un un2 ∧ Forall2 unsourced back un ∧ Forall2 unsourced back2 un2 ∧
     (un ≠ [] → ∃ f f2, um = Some f ∧ um2 = Some f2 ∧
        holds w (steps w es) f (e_print E (into_ledger ho back)) ∧
        holds w2 (steps w2 es2) f2 (e_print E (into_ledger ho back2)))).
Proof. intros Hk. exact (c145_command D f Hk E ho ho2 inputs inputs2 um um2 output output2 w w2 tpss w0 w20 es es2 r r2). Qed.
Print Assumptions C145_command.

(** Everything is moved by 400 years, after which the calendar repeats; one transaction
    is handed back. *)
Definition rd_f (d : date) : date := let '(y, m, n) := d in ((y + 400)%Z, m, n).
Definition rd_all (d : date) : Prop := True.
Lemma rd_order : keeps_order rd_all rd_f.
Proof. intros [[y m] d] [[y' m'] d'] _ _. cbn. lia. Qed.
Lemma rd_only tps : only_days rd_all tps.
Proof. by intros tp _. Qed.
Definition rd_s1 := ex_s1 ++ [ex_u4].
Definition rd_m : merger := (merge reverse_order merger_new (redate rd_f <$> ex_s0)).1.
Definition rd_out : list transaction_postings :=
  match build default_order (merge reverse_order rd_m (redate rd_f <$> rd_s1)).1 with Ok l => l | _ => [] end.
Example C145_ex : keeps_order rd_all rd_f ∧ made_redated rd_all rd_f ex_m0 rd_m ∧ only_days rd_all rd_s1 ∧
  rmap length (merge default_order ex_m0 rd_s1).2 = Ok 1 ∧
  take 1 (tp_date <$> rd_out) = [rd_f day1] ∧ length rd_out = 4.
Proof.
  split_and!; [exact rd_order| |apply rd_only|by_compute|by_compute|by_compute].
  constructor; [constructor|exact default_order_ok|exact reverse_order_ok|apply rd_only].
Qed.

(** As files. *)
Definition rd_read (l : ledger) : list transaction_postings := transaction_postings_of <$> ledger_trns l.
Definition rd_sets : list (list transaction_postings) := rd_read <$> [ex_l1; ex_l2].
Definition rd_l1 : ledger := into_ledger default_order (redate rd_f <$> ex_s0).
Definition rd_l2 : ledger := into_ledger default_order (redate rd_f <$> [ex_u1; ex_u2; ex_u3; ex_u4]).
Definition rd_E : env := ex_env (ex_c0 ++ [(s2l "R1", rd_l1); (s2l "R2", rd_l2)]).
Definition rd_w : world := World {[ s2l "a" := s2l "R1"; s2l "b" := s2l "R2" ]} ∅ [] [].
Lemma rd_sourceless : Forall (λ l, Forall (λ t, source_tag (transaction_postings_of t) = None) (ledger_trns l)) [ex_l1; ex_l2; rd_l1; rd_l2].
Proof. by_compute. Qed.
Example C145_command_ex : only_days rd_all (mjoin rd_sets) ∧
  journals rd_E ex_w ex_inputs rd_sets ex_w ∧ journals rd_E rd_w ex_inputs (redate_inputs rd_f rd_sets) rd_w ∧
  (∀ f, writable rd_E f) ∧
  (merge_cmd rd_E default_order ex_inputs ex_um (Path (s2l "out")) ex_w).2 = Ok tt.
Proof.
  pose proof rd_sourceless as H. rewrite !Forall_cons in H. destruct H as (T1 & T2 & T3 & T4 & _).
  rewrite Forall_forall in T1. rewrite Forall_forall in T2. rewrite Forall_forall in T3. rewrite Forall_forall in T4.
  split_and!.
  - apply rd_only.
  - refine (journals_cons _ _ _ ex_l1 ex_w _ _ _ _ (as_supported _) T1 _);
      [|refine (journals_cons _ _ _ ex_l2 ex_w _ _ _ _ (as_supported _) T2 _); [|constructor]].
    + apply (reads_path _ _ _ (s2l "J1")); [done|vm_compute; reflexivity|vm_compute; reflexivity].
    + apply (reads_path _ _ _ (s2l "J2")); [done|vm_compute; reflexivity|vm_compute; reflexivity].
  - assert (redate_inputs rd_f rd_sets = [rd_read rd_l1; rd_read rd_l2]) as -> by by_compute.
    refine (journals_cons _ _ _ rd_l1 rd_w _ _ _ _ (as_supported _) T3 _);
      [|refine (journals_cons _ _ _ rd_l2 rd_w _ _ _ _ (as_supported _) T4 _); [|constructor]].
    + apply (reads_path _ _ _ (s2l "R1")); [done|vm_compute; reflexivity|vm_compute; reflexivity].
    + apply (reads_path _ _ _ (s2l "R2")); [done|vm_compute; reflexivity|vm_compute; reflexivity].
  - by intros [].
  - by_compute.
Qed.

(** Days must not become the same: here all become one, and a payment is taken for that
    of another day. *)
Definition rd_in (d : date) (fp : str) : transaction_postings := ex_tp d (s2l "tip") [ex_post (s2l "expenses:tip") 500 [fp]].
Definition rd_first : list transaction_postings := [rd_in (2020%Z, 1%N, 2%N) (s2l "fp-x1")].
Definition rd_second : list transaction_postings := [rd_in (2020%Z, 1%N, 3%N) (s2l "fp-x2")].
Definition rd_run (f : date → date) : merger :=
  (merge default_order (merge default_order merger_new (redate f <$> rd_first)).1 (redate f <$> rd_second)).1.
Theorem C145_apart_needed : ∃ f, (∀ a b : date, f a = f b) ∧
  rmap length (build default_order (rd_run id)) = Ok 2 ∧ rmap length (build default_order (rd_run f)) = Ok 1.
Proof. exists (λ _, (2020%Z, 1%N, 1%N)). split_and!; [done|by_compute|by_compute]. Qed.
Print Assumptions C145_apart_needed.
(** And they must stay in order, as the journal is sorted by date. *)
Theorem C145_order_needed : ∃ f : date → date, (∀ a b, f a = f b → a = b) ∧
  build default_order (rd_run f) ≠ rmap (λ out : list transaction_postings, redate f <$> out) (build default_order (rd_run id)).
Proof.
  exists (λ d, let '(y, m, n) := d in if bool_decide (d = (2020%Z, 1%N, 2%N)) then (2020%Z, 1%N, 3%N)
    else if bool_decide (d = (2020%Z, 1%N, 3%N)) then (2020%Z, 1%N, 2%N) else d). split.
  - intros [[y m] d] [[y' m'] d']. repeat case_bool_decide; congruence.
  - by_compute.
Qed.
Print Assumptions C145_order_needed.

(** Renaming accounts and currencies (C141).  The vocabulary is in RenameClaims.v. *)
From Verif Require Import MergeClaims.
From Verif Require Import Base Types SpecBase BaseProofs CommentModel MergeModel CmdModel CommentExamples MergeExamples ImportExamples CmdClaims CmdExamples
  HeaderClaims RenameClaims Rename AsideExamples.
Local Open Scope nat_scope.

(** C141: if accounts and currencies are given other names, everywhere and no two of
    them the same, then every merge hands back the same transactions, or fails in the
    same way, and the journal built is the same one, with the new names. *)
Theorem C141_renamed A C fa fc m m' ho tps : stay_apart A fa → stay_apart C fc →
  made_renamed A C fa fc m m' → only_names A C tps →
  (merge ho m' (rename fa fc <$> tps)).2 = rmap (λ un : list transaction_postings, rename fa fc <$> un) (merge ho m tps).2 ∧
  build ho m' = rmap (λ out : list transaction_postings, rename fa fc <$> out) (build ho m).
Proof. intros Ha Hc. exact (c141 A C fa fc Ha Hc m m' ho tps). Qed.
Print Assumptions C141_renamed.
(** The merge command, on files that are the same but for the names: it succeeds on
    both or on neither; and the files it writes are the same but for the names. *)
Theorem C141_command A C fa fc E ho inputs inputs2 um um2 output output2 w w2 tpss w0 w20 es es2 r r2 :
  stay_apart A fa → stay_apart C fc → hash_order_ok ho → only_names A C (mjoin tpss) →
  journals E w inputs tpss w0 → journals E w2 inputs2 (rename_inputs fa fc tpss) w20 →
  (is_Some um ↔ is_Some um2) → um ≠ Some Stdio → um2 ≠ Some Stdio → um ≠ Some output → um2 ≠ Some output2 →
  (∀ f, um = Some f → writable E f) → (∀ f, um2 = Some f → writable E f) → writable E output → writable E output2 →
  merge_cmd E ho inputs um output w = (es, r) → merge_cmd E ho inputs2 um2 output2 w2 = (es2, r2) →
  (r = Ok tt ↔ r2 = Ok tt) ∧
  (r = Ok tt → ∃ out un back back2,
     holds w (steps w es) output (e_print E (into_ledger ho out)) ∧
     holds w2 (steps w2 es2) output2 (e_print E (into_ledger ho (rename fa fc <$> out))) ∧
     (* what is handed back has the name of the file it is from *)
     Forall2 unsourced back un ∧ Forall2 unsourced back2 (rename fa fc <$> un) ∧
     (un ≠ [] → ∃ f f2, um = Some f ∧ um2 = Some f2 ∧
        holds w (steps w es) f (e_print E (into_ledger ho back)) ∧
        holds w2 (steps w2 es2) f2 (e_print E (into_ledger ho back2)))).
Proof. intros Ha Hc. exact (c141_command A C fa fc Ha Hc E ho inputs inputs2 um um2 output output2 w w2 tpss w0 w20 es es2 r r2). Qed.
Print Assumptions C141_command.

(** The bank account is renamed, the two expense accounts exchange their names, and
    the currency is changed; one transaction is handed back. *)
Definition rn_A (a : str) : Prop := a ∈ [bank; food; unknown; s2l "expenses:tip"].
Definition rn_C (c : str) : Prop := c ∈ [s2l "GBP"].
Definition rn_fa (a : str) : str :=
  if str_eqb a bank then s2l "assets:checking" else if str_eqb a food then s2l "expenses:tip"
  else if str_eqb a (s2l "expenses:tip") then food else a.
Definition rn_fc (c : str) : str := if str_eqb c (s2l "GBP") then s2l "EUR" else c.
Lemma rn_apart_A : stay_apart rn_A rn_fa.
Proof.
  assert (Forall (λ a, Forall (λ b, rn_fa a = rn_fa b → a = b) [bank; food; unknown; s2l "expenses:tip"]) [bank; food; unknown; s2l "expenses:tip"]) as H by by_compute.
  intros a b Ha Hb. rewrite Forall_forall in H. specialize (H a Ha). rewrite Forall_forall in H. by apply (H b Hb).
Qed.
Lemma rn_apart_C : stay_apart rn_C rn_fc.
Proof. intros a b Ha Hb _. apply elem_of_list_singleton in Ha, Hb. by subst. Qed.
Lemma only_compute (As Cs : list str) tps :
  Forall (λ tp, Forall (λ p, p_account (pi_raw p) ∈ As ∧ Forall (λ a, cm_name (a_commodity a) ∈ Cs) (amounts_of (pi_raw p))) (tp_posts tp)) tps →
  only_names (.∈ As) (.∈ Cs) tps.
Proof.
  intros H tp p Htp Hp. rewrite Forall_forall in H. specialize (H tp Htp). cbv beta in H. rewrite Forall_forall in H.
  destruct (H p Hp) as [H1 H2]. split; [done|]. by rewrite Forall_forall in H2.
Qed.
Definition rn_s1 := ex_s1 ++ [ex_u4].
Example C141_ex : stay_apart rn_A rn_fa ∧ stay_apart rn_C rn_fc ∧
  made_renamed rn_A rn_C rn_fa rn_fc ex_m0 (merge default_order merger_new (rename rn_fa rn_fc <$> ex_s0)).1 ∧
  only_names rn_A rn_C rn_s1 ∧
  (λ r, length (rok r [])) (merge default_order ex_m0 rn_s1).2 = 1 ∧
  (λ tp, (λ p, p_account (pi_raw p)) <$> tp_posts tp) <$>
    rok (build default_order (merge default_order (merge default_order merger_new (rename rn_fa rn_fc <$> ex_s0)).1 (rename rn_fa rn_fc <$> rn_s1)).1) [] =
  [[s2l "assets:checking"; s2l "expenses:tip"]; [s2l "assets:checking"; s2l "expenses:tip"];
   [s2l "assets:checking"; s2l "expenses:tip"; food]; [s2l "assets:checking"]].
Proof.
  split_and!; [exact rn_apart_A|exact rn_apart_C| | |by_compute|by_compute].
  - constructor; [constructor|]. apply only_compute. by_compute.
  - apply only_compute. by_compute.
Qed.
(** As files. *)
Definition rn_read (l : ledger) : list transaction_postings := transaction_postings_of <$> ledger_trns l.
Definition rn_sets : list (list transaction_postings) := rn_read <$> [ex_l1; ex_l2].
Definition rn_l1 : ledger := into_ledger default_order (rename rn_fa rn_fc <$> ex_s0).
Definition rn_l2 : ledger := into_ledger default_order (rename rn_fa rn_fc <$> [ex_u1; ex_u2; ex_u3; ex_u4]).
Definition rn_E : env := ex_env (ex_c0 ++ [(s2l "R1", rn_l1); (s2l "R2", rn_l2)]).
Definition rn_w : world := World {[ s2l "a" := s2l "R1"; s2l "b" := s2l "R2" ]} ∅ [] [].
Lemma rn_sourceless : Forall (λ l, Forall (λ t, source_tag (transaction_postings_of t) = None) (ledger_trns l)) [ex_l1; ex_l2; rn_l1; rn_l2].
Proof. by_compute. Qed.
Example C141_command_ex : only_names rn_A rn_C (mjoin rn_sets) ∧
  journals rn_E ex_w ex_inputs rn_sets ex_w ∧ journals rn_E rn_w ex_inputs (rename_inputs rn_fa rn_fc rn_sets) rn_w ∧
  (∀ f, writable rn_E f) ∧
  (merge_cmd rn_E default_order ex_inputs ex_um (Path (s2l "out")) ex_w).2 = Ok tt.
Proof.
  pose proof rn_sourceless as H. rewrite !Forall_cons in H. destruct H as (T1 & T2 & T3 & T4 & _).
  rewrite Forall_forall in T1. rewrite Forall_forall in T2. rewrite Forall_forall in T3. rewrite Forall_forall in T4.
  split_and!.
  - apply only_compute. by_compute.
  - refine (journals_cons _ _ _ ex_l1 ex_w _ _ _ _ (as_supported _) T1 _);
      [|refine (journals_cons _ _ _ ex_l2 ex_w _ _ _ _ (as_supported _) T2 _); [|constructor]].
    + apply (reads_path _ _ _ (s2l "J1")); [done|vm_compute; reflexivity|vm_compute; reflexivity].
    + apply (reads_path _ _ _ (s2l "J2")); [done|vm_compute; reflexivity|vm_compute; reflexivity].
  - assert (rename_inputs rn_fa rn_fc rn_sets = [rn_read rn_l1; rn_read rn_l2]) as -> by by_compute.
    refine (journals_cons _ _ _ rn_l1 rn_w _ _ _ _ (as_supported _) T3 _);
      [|refine (journals_cons _ _ _ rn_l2 rn_w _ _ _ _ (as_supported _) T4 _); [|constructor]].
    + apply (reads_path _ _ _ (s2l "R1")); [done|vm_compute; reflexivity|vm_compute; reflexivity].
    + apply (reads_path _ _ _ (s2l "R2")); [done|vm_compute; reflexivity|vm_compute; reflexivity].
  - by intros [].
  - by_compute.
Qed.
(** If two accounts are given the same name, payments that were told apart by it can
    be taken for the same: here two transactions become one. *)
Definition rn_in : transaction_postings :=
  ex_tp day1 (s2l "tip") [ex_post (s2l "expenses:tip") 500 [s2l "fp-z1"]; ex_post (s2l "liabilities:card") (-500) [s2l "fp-z2"]].
Definition rn_one (a : str) : str := if str_eqb a (s2l "expenses:tip") then food else a.
Definition rn_run : merger := (merge default_order (merge default_order merger_new [ex_t2]).1 [rn_in]).1.
Lemma rok_ok (r : result (list transaction_postings)) n : rmap length r = Ok n → r = Ok (rok r []).
Proof. by destruct r. Qed.
Theorem C141_apart_needed : ∃ tps tps' m1 m1' m m' out out',
  merge default_order merger_new tps = (m1, Ok []) ∧ merge default_order m1 tps' = (m, Ok []) ∧ build default_order m = Ok out ∧
  merge default_order merger_new (rename rn_one id <$> tps) = (m1', Ok []) ∧ merge default_order m1' (rename rn_one id <$> tps') = (m', Ok []) ∧
  build default_order m' = Ok out' ∧ length out = 2 ∧ length out' = 1.
Proof.
  exists ([ex_t2]), ([rn_in]), (merge default_order merger_new ([ex_t2])).1,
    (merge default_order merger_new (rename rn_one id <$> ([ex_t2]))).1, rn_run,
    (merge default_order (merge default_order merger_new (rename rn_one id <$> ([ex_t2]))).1 (rename rn_one id <$> ([rn_in]))).1,
    (rok (build default_order rn_run) []),
    (rok (build default_order (merge default_order (merge default_order merger_new (rename rn_one id <$> ([ex_t2]))).1 (rename rn_one id <$> ([rn_in]))).1) []).
  split_and!.
  - apply merge_eq. by_compute.
  - apply merge_eq. by_compute.
  - apply (rok_ok _ 2). by_compute.
  - apply merge_eq. by_compute.
  - apply merge_eq. by_compute.
  - apply (rok_ok _ 1). by_compute.
  - by_compute.
  - by_compute.
Qed.
Print Assumptions C141_apart_needed.

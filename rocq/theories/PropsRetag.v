(** Renaming flag tags, in particular fingerprints (C144).  The vocabulary is in
    RetagClaims.v. *)
From Verif Require Import MergeClaims.
From Verif Require Import Base Types SpecBase BaseProofs CommentModel MergeModel CmdModel MergeSpec CommentExamples MergeExamples ImportExamples CmdClaims CmdExamples
  HeaderClaims RenameClaims RetagClaims Retag RetagCmd AsideExamples.
Local Open Scope nat_scope.

(** C144: if flag tags are renamed everywhere, fingerprints to fingerprints with no two
    of those that occur becoming the same, then every merge hands back the same
    transactions (bar the candidate tags it adds), or fails, with the old and the new
    tags alike, and the journal built is the same one, with the new tags. *)
Theorem C144_retagged F f m m' ho ho' tps : keeps_kinds f → stay_apart F f →
  hash_order_ok ho → hash_order_ok ho' → made_retagged F f m m' → only_fps F tps →
  ((∃ un un', (merge ho m tps).2 = Ok un ∧ (merge ho' m' (retag f <$> tps)).2 = Ok un' ∧
     Forall2 (λ u u', equal_but_candidates (retag f u) u') un un') ∨
   (∃ e e', (merge ho m tps).2 = Err e ∧ (merge ho' m' (retag f <$> tps)).2 = Err e')) ∧
  build ho' m' = rmap (λ out : list transaction_postings, retag f <$> out) (build ho m).
Proof. intros Hk Ha. exact (c144 F f Hk Ha m m' ho ho' tps). Qed.
Print Assumptions C144_retagged.

(** The merge command, on files that are the same but for the tags: it succeeds on
    both or on neither; and the files it writes are the same but for the tags. *)
Theorem C144_command F f E ho ho2 inputs inputs2 um um2 output output2 w w2 tpss w0 w20 es es2 r r2 :
  keeps_kinds f → stay_apart F f → hash_order_ok ho → hash_order_ok ho2 → only_fps F (mjoin tpss) →
  journals E w inputs tpss w0 → journals E w2 inputs2 (retag_inputs f tpss) w20 →
  (is_Some um ↔ is_Some um2) → um ≠ Some Stdio → um2 ≠ Some Stdio → um ≠ Some output → um2 ≠ Some output2 →
  (∀ f, um = Some f → writable E f) → (∀ f, um2 = Some f → writable E f) → writable E output → writable E output2 →
  merge_cmd E ho inputs um output w = (es, r) → merge_cmd E ho2 inputs2 um2 output2 w2 = (es2, r2) →
  (r = Ok tt ↔ r2 = Ok tt) ∧
  (r = Ok tt → ∃ out un un2 back back2,
     holds w (steps w es) output (e_print E (into_ledger ho out)) ∧
     holds w2 (steps w2 es2) output2 (e_print E (into_ledger ho (retag f <$> out))) ∧
     (* what is handed back has the name of the file it is from *)
     Forall2 (λ u u', equal_but_candidates (retag f u) u') un un2 ∧ Forall2 unsourced back un ∧ Forall2 unsourced back2 un2 ∧
     (un ≠ [] → ∃ f f2, um = Some f ∧ um2 = Some f2 ∧
        holds w (steps w es) f (e_print E (into_ledger ho back)) ∧
        holds w2 (steps w2 es2) f2 (e_print E (into_ledger ho back2)))).
Proof. intros Hk Ha. exact (c144_command F f Hk Ha E ho ho2 inputs inputs2 um um2 output output2 w w2 tpss w0 w20 es es2 r r2). Qed.
Print Assumptions C144_command.

(** All fingerprints get a longer prefix, and another tag is renamed; one transaction
    is handed back. *)
Definition rt_f (t : str) : str :=
  if bool_decide (take 3 t = s2l "fp-") then s2l "fp-new." ++ drop 3 t else if str_eqb t (s2l "groceries") then s2l "shopping" else t.
Lemma rt_f_fp s : rt_f (s2l "fp-" ++ s) = s2l "fp-new." ++ s.
Proof. reflexivity. Qed.
Lemma rt_f_other t : ¬ fp_tag t → rt_f t = t ∨ (t = s2l "groceries" ∧ rt_f t = s2l "shopping").
Proof.
  intros H. unfold rt_f. destruct (bool_decide_reflect (take 3 t = s2l "fp-")) as [He|He].
  - destruct H. exists (drop 3 t). by rewrite <- (take_drop 3 t) at 1; rewrite He.
  - destruct (str_eqb t (s2l "groceries")) eqn:E; [|by left]. right. split; [|done]. unfold str_eqb in E. by apply bool_decide_eq_true in E.
Qed.
Lemma rt_kinds : keeps_kinds rt_f.
Proof.
  split.
  - intros t. split.
    + intros H. destruct (decide (fp_tag t)) as [|Hn]; [done|]. destruct (rt_f_other t Hn) as [He|[-> He]]; rewrite He in H; [done|]. by destruct H.
    + intros [s ->]. rewrite rt_f_fp. by eexists.
  - intros t. destruct (decide (fp_tag t)) as [[s ->]|Hn].
    + rewrite rt_f_fp. split; by intros [? [=]].
    + destruct (rt_f_other t Hn) as [->|[-> He]]; [done|]. rewrite He. split; by intros [? [=]].
  - intros t. destruct (decide (fp_tag t)) as [[s ->]|Hn].
    + rewrite rt_f_fp. split; by intros [=].
    + destruct (rt_f_other t Hn) as [->|[-> He]]; [done|]. rewrite He. split; intros H; by vm_compute in H.
Qed.
Lemma rt_apart : stay_apart fp_tag rt_f.
Proof. intros a b [s ->] [s' ->]. rewrite !rt_f_fp. intros [= ->]. done. Qed.
Lemma rt_only tps : only_fps fp_tag tps.
Proof. by intros tp p t _ _ [H _]. Qed.
Definition rt_s1 := ex_s1 ++ [ex_u4].
Definition rt_m : merger := (merge reverse_order merger_new (retag rt_f <$> ex_s0)).1.
Definition rt_out : list transaction_postings :=
  match build default_order (merge reverse_order rt_m (retag rt_f <$> rt_s1)).1 with Ok l => l | _ => [] end.
Example C144_ex : keeps_kinds rt_f ∧ stay_apart fp_tag rt_f ∧ made_retagged fp_tag rt_f ex_m0 rt_m ∧ only_fps fp_tag rt_s1 ∧
  rmap length (merge default_order ex_m0 rt_s1).2 = Ok 1 ∧
  (λ p, elements (tags (pi_comment p))) <$> take 2 (all_posts rt_out) =
    [[s2l "fp-new.a1"; s2l "fp-new.z1"]; [s2l "fp-new.a2"; s2l "shopping"]].
Proof.
  split_and!; [exact rt_kinds|exact rt_apart| |apply rt_only|by_compute|by_compute].
  constructor; [constructor|exact default_order_ok|exact reverse_order_ok|apply rt_only].
Qed.

(** As files. *)
Definition rt_read (l : ledger) : list transaction_postings := transaction_postings_of <$> ledger_trns l.
Definition rt_sets : list (list transaction_postings) := rt_read <$> [ex_l1; ex_l2].
Definition rt_l1 : ledger := into_ledger default_order (retag rt_f <$> ex_s0).
Definition rt_l2 : ledger := into_ledger default_order (retag rt_f <$> [ex_u1; ex_u2; ex_u3; ex_u4]).
Definition rt_E : env := ex_env (ex_c0 ++ [(s2l "R1", rt_l1); (s2l "R2", rt_l2)]).
Definition rt_w : world := World {[ s2l "a" := s2l "R1"; s2l "b" := s2l "R2" ]} ∅ [] [].
Lemma rt_sourceless : Forall (λ l, Forall (λ t, source_tag (transaction_postings_of t) = None) (ledger_trns l)) [ex_l1; ex_l2; rt_l1; rt_l2].
Proof. by_compute. Qed.
Example C144_command_ex : only_fps fp_tag (mjoin rt_sets) ∧
  journals rt_E ex_w ex_inputs rt_sets ex_w ∧ journals rt_E rt_w ex_inputs (retag_inputs rt_f rt_sets) rt_w ∧
  (∀ f, writable rt_E f) ∧
  (merge_cmd rt_E default_order ex_inputs ex_um (Path (s2l "out")) ex_w).2 = Ok tt.
Proof.
  pose proof rt_sourceless as H. rewrite !Forall_cons in H. destruct H as (T1 & T2 & T3 & T4 & _).
  rewrite Forall_forall in T1. rewrite Forall_forall in T2. rewrite Forall_forall in T3. rewrite Forall_forall in T4.
  split_and!.
  - apply rt_only.
  - refine (journals_cons _ _ _ ex_l1 ex_w _ _ _ _ (as_supported _) T1 _);
      [|refine (journals_cons _ _ _ ex_l2 ex_w _ _ _ _ (as_supported _) T2 _); [|constructor]].
    + apply (reads_path _ _ _ (s2l "J1")); [done|vm_compute; reflexivity|vm_compute; reflexivity].
    + apply (reads_path _ _ _ (s2l "J2")); [done|vm_compute; reflexivity|vm_compute; reflexivity].
  - assert (retag_inputs rt_f rt_sets = [rt_read rt_l1; rt_read rt_l2]) as -> by by_compute.
    refine (journals_cons _ _ _ rt_l1 rt_w _ _ _ _ (as_supported _) T3 _);
      [|refine (journals_cons _ _ _ rt_l2 rt_w _ _ _ _ (as_supported _) T4 _); [|constructor]].
    + apply (reads_path _ _ _ (s2l "R1")); [done|vm_compute; reflexivity|vm_compute; reflexivity].
    + apply (reads_path _ _ _ (s2l "R2")); [done|vm_compute; reflexivity|vm_compute; reflexivity].
  - by intros [].
  - by_compute.
Qed.

(** Fingerprints that occur must stay apart: here all become one, and a set that was
    accepted is refused. *)
Definition rt_one (t : str) : str := if bool_decide (take 3 t = s2l "fp-") then s2l "fp-one" else t.
Theorem C144_apart_needed : keeps_kinds rt_one ∧
  (merge default_order merger_new [ex_t2]).2 = Ok [] ∧ (merge default_order merger_new (retag rt_one <$> [ex_t2])).2 = Err EDupFingerprint.
Proof.
  split_and!; [|by_compute|by_compute].
  assert (∀ t, ¬ fp_tag t → rt_one t = t) as Ho.
  { intros t Hn. unfold rt_one. destruct (bool_decide_reflect (take 3 t = s2l "fp-")) as [He|He]; [|done].
    destruct Hn. exists (drop 3 t). by rewrite <- (take_drop 3 t) at 1; rewrite He. }
  assert (∀ s, rt_one (s2l "fp-" ++ s) = s2l "fp-one") as Hf by done.
  split; intros t; destruct (decide (fp_tag t)) as [[s ->]|Hn]; rewrite ?Hf, ?Ho by done; try done.
  - split; intros _; by eexists.
  - split; by intros [? [=]].
Qed.
Print Assumptions C144_apart_needed.
(** And [unknown-account] must keep its meaning: if another tag becomes it, a posting
    with another account is taken for an existing one. *)
Definition rt_unknown (t : str) : str := if str_eqb t (s2l "groceries") then s2l "unknown-account" else t.
Definition rt_in : transaction_postings := ex_tp day1 (s2l "tip") [ex_post (s2l "expenses:tip") 500 [s2l "fp-z1"; s2l "groceries"]].
Theorem C144_unknown_needed : ∃ tps tps' m1 m1' m m' out out',
  merge default_order merger_new tps = (m1, Ok []) ∧ merge default_order m1 tps' = (m, Ok []) ∧ build default_order m = Ok out ∧
  merge default_order merger_new (retag rt_unknown <$> tps) = (m1', Ok []) ∧ merge default_order m1' (retag rt_unknown <$> tps') = (m', Ok []) ∧
  build default_order m' = Ok out' ∧ length out = 2 ∧ length out' = 1.
Proof.
  set (rok := λ r : result (list transaction_postings), match r with Ok l => l | _ => [] end).
  assert (∀ r n, rmap length r = Ok n → r = Ok (rok r)) as Hrok by (by intros [] n).
  exists ([ex_t2]), ([rt_in]), (merge default_order merger_new ([ex_t2])).1,
    (merge default_order merger_new (retag rt_unknown <$> ([ex_t2]))).1, (merge default_order (merge default_order merger_new [ex_t2]).1 [rt_in]).1,
    (merge default_order (merge default_order merger_new (retag rt_unknown <$> ([ex_t2]))).1 (retag rt_unknown <$> ([rt_in]))).1,
    (rok (build default_order (merge default_order (merge default_order merger_new [ex_t2]).1 [rt_in]).1)),
    (rok (build default_order (merge default_order (merge default_order merger_new (retag rt_unknown <$> ([ex_t2]))).1 (retag rt_unknown <$> ([rt_in]))).1)).
  split_and!.
  - apply merge_eq. by_compute.
  - apply merge_eq. by_compute.
  - apply (Hrok _ 2). by_compute.
  - apply merge_eq. by_compute.
  - apply merge_eq. by_compute.
  - apply (Hrok _ 1). by_compute.
  - subst rok. by_compute.
  - subst rok. by_compute.
Qed.
Print Assumptions C144_unknown_needed.

(** Other amounts (C146).  The vocabulary is in FigureClaims.v. *)
From Verif Require Import MergeClaims.
From Verif Require Import Base Types SpecBase BaseProofs CommentModel MergeModel CmdModel MergeLemmas CommentExamples MergeExamples ImportExamples CmdClaims CmdExamples
  HeaderClaims FigureClaims Figures AsideExamples.
From Coq Require Import QArith Lia.
Local Open Scope nat_scope.

(** C146: if amounts are replaced by others, such that those that were the same (in value
    and currency) still are and no others, then every merge hands back the same
    transactions, or fails in the same way, and the journal built is the same one, with
    the new amounts. *)
Theorem C146_other R m m' ho tps tps' : tells_apart R → made_other R m m' → Forall2 (trn_other R) tps tps' →
  match (merge ho m tps).2, (merge ho m' tps').2 with
  | Ok un, Ok un' => Forall2 (trn_other R) un un'
  | Err e, Err e' => e = e'
  | Panic, Panic => True
  | _, _ => False
  end ∧
  match build ho m, build ho m' with
  | Ok out, Ok out' => Forall2 (trn_other R) out out'
  | Err e, Err e' => e = e'
  | Panic, Panic => True
  | _, _ => False
  end.
Proof. intros HR. exact (c146 R HR m m' ho tps tps'). Qed.
Print Assumptions C146_other.

(** In particular how an amount is written, with how many decimal places or with which
    sign of zero, makes no difference. *)
Theorem C146_written m m' ho tps tps' : made_other same_amount m m' → Forall2 (trn_other same_amount) tps tps' →
  match (merge ho m tps).2, (merge ho m' tps').2 with
  | Ok un, Ok un' => Forall2 (trn_other same_amount) un un'
  | Err e, Err e' => e = e'
  | Panic, Panic => True
  | _, _ => False
  end ∧
  match build ho m, build ho m' with
  | Ok out, Ok out' => Forall2 (trn_other same_amount) out out'
  | Err e, Err e' => e = e'
  | Panic, Panic => True
  | _, _ => False
  end.
Proof. exact (c146 same_amount written_apart m m' ho tps tps'). Qed.
Print Assumptions C146_written.

(** The merge command, on files that are the same but for the amounts: it succeeds on
    both or on neither; and the files it writes are the same but for the amounts. *)
Theorem C146_command R E ho inputs inputs2 um um2 output output2 w w2 tpss tpss2 w0 w20 es es2 r r2 :
  tells_apart R → hash_order_ok ho → Forall2 (Forall2 (trn_other R)) tpss tpss2 →
  journals E w inputs tpss w0 → journals E w2 inputs2 tpss2 w20 →
  (is_Some um ↔ is_Some um2) → um ≠ Some Stdio → um2 ≠ Some Stdio → um ≠ Some output → um2 ≠ Some output2 →
  (∀ f, um = Some f → writable E f) → (∀ f, um2 = Some f → writable E f) → writable E output → writable E output2 →
  merge_cmd E ho inputs um output w = (es, r) → merge_cmd E ho inputs2 um2 output2 w2 = (es2, r2) →
  (r = Ok tt ↔ r2 = Ok tt) ∧
  (r = Ok tt → ∃ out out2 un un2 back back2,
     holds w (steps w es) output (e_print E (into_ledger ho out)) ∧
     holds w2 (steps w2 es2) output2 (e_print E (into_ledger ho out2)) ∧ Forall2 (trn_other R) out out2 ∧
     (* what is handed back has the name of the file it is from *)
     Forall2 (trn_other R) un un2 ∧ Forall2 unsourced back un ∧ Forall2 unsourced back2 un2 ∧
     (un ≠ [] → ∃ f f2, um = Some f ∧ um2 = Some f2 ∧
        holds w (steps w es) f (e_print E (into_ledger ho back)) ∧
        holds w2 (steps w2 es2) f2 (e_print E (into_ledger ho back2)))).
Proof. intros HR. exact (c146_command R HR E ho inputs inputs2 um um2 output output2 w w2 tpss tpss2 w0 w20 es es2 r r2). Qed.
Print Assumptions C146_command.

(** A statement is written with more decimal places than the journal; one transaction is
    handed back. *)
Definition fg_f (a : amount) : amount :=
  let q := a_quantity a in Amount (Dec (d_neg q) (d_scale q + 1) (d_mant q * 10)) (a_commodity a).
Definition fg_price (g : amount → amount) (p : price) : price :=
  match p with PriceUnit a => PriceUnit (g a) | PriceTotal a => PriceTotal (g a) end.
Definition fg_post (g : amount → amount) (p : posting_internal) : posting_internal :=
  let r := pi_raw p in
  PI (Posting (p_account r) (p_reality r)
       ((λ a, PostingAmount (g (pa_amount a)) (fg_price g <$> pa_lot_price a) (fg_price g <$> pa_price a)) <$> p_amount r)
       ((λ b, match b with BalZero => BalZero | BalAmount a => BalAmount (g a) end) <$> p_balance r)
       (p_status r) (p_comment r)) (pi_comment p).
Definition fg (g : amount → amount) (tp : transaction_postings) : transaction_postings := TP (tp_trn tp) (fg_post g <$> tp_posts tp).
Lemma fg_other (R : amount → amount → Prop) g : (∀ a, R a (g a)) → ∀ tps, Forall2 (trn_other R) tps (fg g <$> tps).
Proof.
  intros H tps. apply Forall2_fmap_r, Forall2_same_length_lookup_2; [done|]. intros i tp tp' H1 H2. rewrite H1 in H2. injection H2 as <-.
  split; [done|]. cbn. apply Forall2_fmap_r, Forall2_same_length_lookup_2; [done|]. clear -H. intros i p p' H1 H2. rewrite H1 in H2. injection H2 as <-.
  assert (∀ q, option_Forall2 (price_other R) q (fg_price g <$> q)) as Hp by (intros [[]|]; constructor; apply H).
  split; cbn; try done.
  - destruct (p_amount (pi_raw p)); constructor. split_and!; cbn; [apply H|apply Hp|apply Hp].
  - destruct (p_balance (pi_raw p)) as [[]|]; constructor; cbn; [done|apply H].
Qed.
Lemma fg_same a : same_amount a (fg_f a).
Proof.
  apply amount_eqb_spec. unfold amount_eqb. rewrite (proj2 (commodity_eqb_spec (a_commodity a) (a_commodity (fg_f a))) eq_refl), andb_true_r.
  unfold dec_eqb, d_signed. cbn. apply Z.eqb_eq. rewrite N2Z.inj_add, N2Z.inj_mul, Z.pow_add_r by lia. change (10 ^ Z.of_N 1)%Z with 10%Z.
  change (Z.of_N 10) with 10%Z. destruct (d_neg (a_quantity a)); ring.
Qed.
Lemma fg_refl tps : Forall2 (trn_other same_amount) tps tps.
Proof.
  assert (fg id <$> tps = tps) as He.
  { rewrite <- (list_fmap_id tps) at 2. apply list_fmap_ext. intros _ [t ps] _. unfold fg. cbn. f_equal.
    rewrite <- (list_fmap_id ps) at 2. apply list_fmap_ext. intros _ [[? ? [[? [[]|] [[]|]]|] [[]|] ? ?] ?] _; reflexivity. }
  rewrite <- He at 2. apply fg_other. intros a. by split.
Qed.
Definition fg_s1 := ex_s1 ++ [ex_u4].
Example C146_ex : made_other same_amount ex_m0 ex_m0 ∧ Forall2 (trn_other same_amount) fg_s1 (fg fg_f <$> fg_s1) ∧
  fg fg_f <$> fg_s1 ≠ fg_s1 ∧ rmap length (merge default_order ex_m0 fg_s1).2 = Ok 1.
Proof.
  split_and!; [|apply fg_other, fg_same|by_compute|by_compute].
  refine (made_other_merge _ merger_new merger_new default_order ex_s0 ex_s0 _ _); [constructor|apply fg_refl].
Qed.
(** All amounts change their sign. *)
Definition fg_neg (a : amount) : amount := Amount (dec_neg (a_quantity a)) (a_commodity a).
Definition fg_R (a a' : amount) : Prop := a' = fg_neg a.
Example C146_neg_ex : tells_apart fg_R ∧
  made_other fg_R ex_m0 (merge default_order merger_new (fg fg_neg <$> ex_s0)).1 ∧ Forall2 (trn_other fg_R) fg_s1 (fg fg_neg <$> fg_s1) ∧
  rmap length (merge default_order (merge default_order merger_new (fg fg_neg <$> ex_s0)).1 (fg fg_neg <$> fg_s1)).2 = Ok 1.
Proof.
  split_and!; [| |by apply fg_other|by_compute].
  - intros a a' b b' -> ->. rewrite <- !amount_eqb_spec. unfold amount_eqb. cbn. 
    assert (dec_eqb (dec_neg (a_quantity a)) (dec_neg (a_quantity b)) = dec_eqb (a_quantity a) (a_quantity b)) as ->; [|done].
    unfold dec_eqb. apply eq_true_iff_eq. rewrite !Z.eqb_eq. unfold d_signed, dec_neg. cbn. destruct (d_neg (a_quantity a)), (d_neg (a_quantity b)); cbn; lia.
  - refine (made_other_merge _ merger_new merger_new default_order ex_s0 _ _ _); [constructor|by apply fg_other].
Qed.

(** As files. *)
Definition fg_read (l : ledger) : list transaction_postings := transaction_postings_of <$> ledger_trns l.
Definition fg_sets : list (list transaction_postings) := fg_read <$> [ex_l1; ex_l2].
Definition fg_sets2 : list (list transaction_postings) := [fg_read ex_l1; fg fg_f <$> fg_read ex_l2].
Definition fg_l2 : ledger := into_ledger default_order (fg fg_f <$> [ex_u1; ex_u2; ex_u3; ex_u4]).
Definition fg_E : env := ex_env (ex_c0 ++ [(s2l "R2", fg_l2)]).
Definition fg_w : world := World {[ s2l "a" := s2l "J1"; s2l "b" := s2l "R2" ]} ∅ [] [].
Lemma fg_sourceless : Forall (λ l, Forall (λ t, source_tag (transaction_postings_of t) = None) (ledger_trns l)) [ex_l1; ex_l2; fg_l2].
Proof. by_compute. Qed.
Example C146_command_ex : Forall2 (Forall2 (trn_other same_amount)) fg_sets fg_sets2 ∧
  journals fg_E ex_w ex_inputs fg_sets ex_w ∧ journals fg_E fg_w ex_inputs fg_sets2 fg_w ∧
  (∀ f, writable fg_E f) ∧
  (merge_cmd fg_E default_order ex_inputs ex_um (Path (s2l "out")) ex_w).2 = Ok tt.
Proof.
  pose proof fg_sourceless as H. rewrite !Forall_cons in H. destruct H as (T1 & T2 & T3 & _).
  rewrite Forall_forall in T1. rewrite Forall_forall in T2. rewrite Forall_forall in T3.
  split_and!.
  - constructor; [apply fg_refl|]. constructor; [apply fg_other, fg_same|constructor].
  - refine (journals_cons _ _ _ ex_l1 ex_w _ _ _ _ (as_supported _) T1 _);
      [|refine (journals_cons _ _ _ ex_l2 ex_w _ _ _ _ (as_supported _) T2 _); [|constructor]].
    + apply (reads_path _ _ _ (s2l "J1")); [done|vm_compute; reflexivity|vm_compute; reflexivity].
    + apply (reads_path _ _ _ (s2l "J2")); [done|vm_compute; reflexivity|vm_compute; reflexivity].
  - assert (fg_sets2 = [fg_read ex_l1; fg_read fg_l2]) as -> by by_compute.
    refine (journals_cons _ _ _ ex_l1 fg_w _ _ _ _ (as_supported _) T1 _);
      [|refine (journals_cons _ _ _ fg_l2 fg_w _ _ _ _ (as_supported _) T3 _); [|constructor]].
    + apply (reads_path _ _ _ (s2l "J1")); [done|vm_compute; reflexivity|vm_compute; reflexivity].
    + apply (reads_path _ _ _ (s2l "R2")); [done|vm_compute; reflexivity|vm_compute; reflexivity].
  - by intros [].
  - by_compute.
Qed.

(** Amounts must stay apart: if all become the same, one payment is taken for another. *)
Definition fg_one (a : amount) : amount := Amount (Dec false 0 1) (a_commodity a).
Definition fg_first : list transaction_postings := [ex_tp day1 (s2l "tip") [ex_post (s2l "expenses:tip") 500 [s2l "fp-x1"]]].
Definition fg_second : list transaction_postings := [ex_tp day1 (s2l "tip") [ex_post (s2l "expenses:tip") 700 [s2l "fp-x2"]]].
Definition fg_run (g : amount → amount) : merger :=
  (merge default_order (merge default_order merger_new (fg g <$> fg_first)).1 (fg g <$> fg_second)).1.
Theorem C146_apart_needed : rmap length (build default_order (fg_run id)) = Ok 2 ∧ rmap length (build default_order (fg_run fg_one)) = Ok 1.
Proof. split; by_compute. Qed.
Print Assumptions C146_apart_needed.

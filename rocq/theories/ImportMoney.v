(** Money texts in statements (C47). *)
From Verif Require Import MergeClaims.
From Verif Require Import Base Types BaseProofs StrProofs NwCsvModel FingerprintModel ImportClaims ImportProofs.
From Coq Require Import Lia QArith Qfield.
Local Open Scope nat_scope.

Lemma digit_rx c : (48 ≤ c ≤ 57)%N → rx_digit c = true.
Proof.
  intros H. unfold rx_digit. apply existsb_exists. exists 48%N. split; [left; done|].
  apply andb_true_iff. split; apply N.leb_le; lia.
Qed.
Lemma digits_rx s : digits s → Forall (λ c, rx_digit c = true) s.
Proof. intros [_ H]. apply Forall_forall. intros c Hc. by apply digit_rx, H. Qed.
Lemma digits_ascii s : digits s ↔ s ≠ [] ∧ forallb ascii_digit s = true.
Proof.
  unfold digits. rewrite forallb_forall. split; intros [H1 H2]; (split; [done|]); intros c Hc.
  - apply elem_of_list_In, H2 in Hc. apply andb_true_iff. split; apply N.leb_le; lia.
  - apply elem_of_list_In, H2, andb_true_iff in Hc as [?%N.leb_le ?%N.leb_le]. lia.
Qed.
Lemma gbp_rx_here_digits neg P F : digits P → digits F →
  gbp_rx_here (POUND :: sign_text neg ++ P ++ DOT :: F) = Some (sign_text neg, P, F).
Proof.
  intros HP HF. unfold gbp_rx_here. rewrite N.eqb_refl.
  pose proof (digits_rx P HP) as RP. pose proof (digits_rx F HF) as RF.
  assert (match sign_text neg ++ P ++ DOT :: F with
    | m :: s' => if (m =? MINUS)%N then ([MINUS], s') else ([], sign_text neg ++ P ++ DOT :: F)
    | [] => ([], sign_text neg ++ P ++ DOT :: F) end = (sign_text neg, P ++ DOT :: F)) as ->.
  { destruct neg; cbn [sign_text app]; [by rewrite N.eqb_refl|].
    destruct P as [|c P]; [by destruct HP|]. cbn [app]. destruct (N.eqb_spec c MINUS) as [->|]; [|done].
    destruct HP as [_ HP]. specialize (HP MINUS (elem_of_list_here _ _)). unfold MINUS in HP. lia. }
  destruct (take_while_app rx_digit P DOT F RP eq_refl) as [-> ->]. rewrite N.eqb_refl.
  rewrite take_while_full by done. destruct P; [by destruct HP|]. by destruct F; [destruct HF|].
Qed.
Lemma gbp_rx_digits neg P F : digits P → digits F →
  gbp_rx (POUND :: sign_text neg ++ P ++ DOT :: F) = Some (sign_text neg, P, F).
Proof. intros HP HF. unfold gbp_rx. by rewrite (gbp_rx_here_digits neg P F HP HF). Qed.
Lemma gbp_rx_minus P F : digits P → digits F → gbp_rx (MINUS :: POUND :: P ++ DOT :: F) = Some ([], P, F).
Proof.
  intros HP HF. change (gbp_rx (MINUS :: POUND :: P ++ DOT :: F)) with (gbp_rx (POUND :: P ++ DOT :: F)).
  by apply (gbp_rx_digits false).
Qed.

Lemma gbp_rx_here_Some s sg P F : gbp_rx_here s = Some (sg, P, F) →
  ∃ neg post, sg = sign_text neg ∧ s = POUND :: sign_text neg ++ P ++ DOT :: F ++ post ∧ P ≠ [] ∧ F ≠ [].
Proof.
  unfold gbp_rx_here. destruct s as [|c s]; [done|]. destruct (N.eqb_spec c POUND) as [->|]; [|done].
  assert (∃ neg s', (match s with m :: s' => if (m =? MINUS)%N then ([MINUS], s') else ([], s) | [] => ([], s) end) =
    (sign_text neg, s') ∧ s = sign_text neg ++ s') as (neg & s' & -> & ->).
  { destruct s as [|m s]; [by exists false, []|]. destruct (N.eqb_spec m MINUS) as [->|].
    - by exists true, s.
    - by exists false, (m :: s). }
  pose proof (take_drop_while rx_digit s') as E1.
  destruct (take_while rx_digit s') as [|p P'] eqn:EP; [done|].
  destruct (drop_while rx_digit s') as [|d s2] eqn:ED; [done|].
  destruct (N.eqb_spec d DOT) as [->|]; [|done].
  pose proof (take_drop_while rx_digit s2) as E2.
  destruct (take_while rx_digit s2) as [|f F'] eqn:EF; [done|].
  intros [= <- <- <-]. exists neg, (drop_while rx_digit s2). split_and!; [done| |done|done].
  rewrite E2. by rewrite E1.
Qed.
Lemma gbp_rx_Some s sg P F : gbp_rx s = Some (sg, P, F) →
  ∃ pre neg post, sg = sign_text neg ∧ s = pre ++ POUND :: sign_text neg ++ P ++ DOT :: F ++ post ∧ P ≠ [] ∧ F ≠ [].
Proof.
  induction s as [|c s IH]; [done|]. cbn [gbp_rx]. destruct (gbp_rx_here (c :: s)) as [[[sg' P'] F']|] eqn:E.
  - intros [= -> -> ->]. apply gbp_rx_here_Some in E as (neg & post & ? & ? & ?). exists [], neg, post. done.
  - intros (pre & neg & post & ? & -> & ?)%IH. by exists (c :: pre), neg, post.
Qed.
Lemma parse_i64_ok s n : s ≠ [] → parse_i64 s = Ok n ↔ digits s ∧ n = number s ∧ (number s ≤ I64_MAX)%N.
Proof.
  intros Hs. unfold parse_i64. change (parse_digits s) with (number s). rewrite digits_ascii.
  destruct (forallb ascii_digit s); cbn [andb]; [|naive_solver].
  destruct (N.leb_spec (number s) I64_MAX) as [H|H].
  - split; [intros [= <-]; done|]. by intros (_ & -> & _).
  - split; [done|]. intros (_ & _ & H'). lia.
Qed.
Lemma sign_eqb neg : str_eqb (sign_text neg) [MINUS] = neg.
Proof. by destruct neg. Qed.

(** Value of the amount read. *)
Lemma read_value neg P F :
  (dec_value (Dec neg 2 (number P * 100 + number F)) ==
   signed neg (inject_Z (Z.of_N (number P)) + inject_Z (Z.of_N (number F)) / 100))%Q.
Proof.
  unfold dec_value, d_signed. cbn [d_neg d_scale d_mant]. change (inject_Z (10 ^ Z.of_N 2)) with (100%Q).
  rewrite N2Z.inj_add, N2Z.inj_mul. destruct neg; cbn [signed].
  - rewrite inject_Z_opp, inject_Z_plus, inject_Z_mult. change (inject_Z (Z.of_N 100)) with 100%Q. field.
  - rewrite inject_Z_plus, inject_Z_mult. change (inject_Z (Z.of_N 100)) with 100%Q. field.
Qed.
Lemma gbp_value_read s a : gbp_value s = Ok a →
  ∃ pre neg P F post, s = pre ++ POUND :: sign_text neg ++ P ++ DOT :: F ++ post ∧ digits P ∧ digits F ∧
    a = Amount (Dec neg 2 (number P * 100 + number F)) GBP.
Proof.
  unfold gbp_value. destruct (gbp_rx s) as [[[sg P] F]|] eqn:E; [|done].
  apply gbp_rx_Some in E as (pre & neg & post & -> & -> & HP & HF).
  intros (x & Hx & H)%rbind_ok. apply rbind_ok in H as (y & Hy & H).
  apply parse_i64_ok in Hx as (DP & -> & _); [|done]. apply parse_i64_ok in Hy as (DF & -> & _); [|done].
  rewrite sign_eqb in H. destruct (_ <=? _)%N; [|done]. apply Ok_inj in H as <-.
  by exists pre, neg, P, F, post.
Qed.
Lemma gbp_value_plain neg P F : digits P → digits F → (number P * 100 + number F ≤ I64_MAX)%N →
  gbp_value (POUND :: sign_text neg ++ P ++ DOT :: F) = Ok (Amount (Dec neg 2 (number P * 100 + number F)) GBP).
Proof.
  intros HP HF Hm. unfold gbp_value. rewrite (gbp_rx_digits neg P F HP HF).
  assert (parse_i64 P = Ok (number P)) as ->. { apply parse_i64_ok; [by destruct HP|]. split_and!; [done|done|lia]. }
  assert (parse_i64 F = Ok (number F)) as ->. { apply parse_i64_ok; [by destruct HF|]. split_and!; [done|done|lia]. }
  cbn [rbind]. apply N.leb_le in Hm. by rewrite Hm, sign_eqb.
Qed.
Lemma gbp_value_minus P F : digits P → digits F →
  gbp_value (MINUS :: POUND :: P ++ DOT :: F) = gbp_value (POUND :: P ++ DOT :: F).
Proof.
  intros HP HF. unfold gbp_value. rewrite gbp_rx_minus by done.
  pose proof (gbp_rx_digits false P F HP HF) as E. cbn [sign_text app] in E. by rewrite E.
Qed.

(** When the value read is the number written. *)
Lemma pow10_inj n : (10 ^ Z.of_nat n = 100)%Z → n = 2.
Proof.
  intros H. destruct n as [|[|[|n]]]; [done..|]. rewrite !Nat2Z.inj_succ, !Z.pow_succ_r in H by lia.
  assert (0 < 10 ^ Z.of_nat n)%Z by (apply Z.pow_pos_nonneg; lia). lia.
Qed.
Lemma pence_exact (p f : N) n :
  (inject_Z (Z.of_N p) + inject_Z (Z.of_N f) / 100 ==
   inject_Z (Z.of_N p) + inject_Z (Z.of_N f) / inject_Z (10 ^ Z.of_nat n))%Q ↔ n = 2 ∨ f = 0%N.
Proof.
  assert (0 < 10 ^ Z.of_nat n)%Z as Hp by (apply Z.pow_pos_nonneg; lia).
  split.
  - intros E. apply Qplus_inj_l in E.
    destruct (decide (f = 0%N)) as [->|Hf]; [by right|]. left. apply pow10_inj.
    assert (inject_Z (Z.of_N f) * inject_Z (10 ^ Z.of_nat n) == inject_Z (Z.of_N f) * 100)%Q as E'.
    { assert (¬ inject_Z (10 ^ Z.of_nat n) == 0)%Q as Hn0.
      { change 0%Q with (inject_Z 0). rewrite inject_Z_injective. lia. }
      assert (inject_Z (Z.of_N f) == inject_Z (Z.of_N f) / 100 * 100)%Q as E1 by field.
      rewrite E1 at 1. rewrite E. field. done. }
    apply Qmult_inj_l in E'.
    + change 100%Q with (inject_Z 100) in E'. by apply (proj1 (inject_Z_injective _ _)) in E'.
    + change 0%Q with (inject_Z 0). rewrite inject_Z_injective. lia.
  - intros [->| ->]; [reflexivity|]. change (Z.of_N 0) with 0%Z. change (inject_Z 0) with 0%Q.
    unfold Qdiv. ring.
Qed.
Lemma signed_inj neg a b : (signed neg a == signed neg b)%Q ↔ (a == b)%Q.
Proof.
  destruct neg; cbn; [|done]. split; [|by intros ->]. intros H.
  rewrite <- (Qopp_involutive a), <- (Qopp_involutive b). by rewrite H.
Qed.
Lemma read_exact neg P F a : digits P → digits F → gbp_value (POUND :: sign_text neg ++ P ++ DOT :: F) = Ok a →
  (dec_value (a_quantity a) == signed neg (text_value P F))%Q ↔ length F = 2 ∨ number F = 0%N.
Proof.
  intros HP HF Ha.
  assert (a = Amount (Dec neg 2 (number P * 100 + number F)) GBP) as ->.
  { unfold gbp_value in Ha. rewrite (gbp_rx_digits neg P F HP HF) in Ha.
    apply rbind_ok in Ha as (x & Hx & H). apply rbind_ok in H as (y & Hy & H).
    apply parse_i64_ok in Hx as (_ & -> & _); [|by destruct HP]. apply parse_i64_ok in Hy as (_ & -> & _); [|by destruct HF].
    rewrite sign_eqb in H. destruct (_ <=? _)%N; [|done]. by apply Ok_inj in H as <-. }
  cbn [a_quantity]. rewrite read_value, signed_inj. apply pence_exact.
Qed.

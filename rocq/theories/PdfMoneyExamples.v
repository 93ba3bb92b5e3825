(** A reader of plain decimals, and the statement of PdfExamples.v read with it. *)
From Verif Require Import MergeClaims.
From Verif Require Import Base Types SpecBase CommentModel MergeModel Sha1 FingerprintModel NwCsvModel PaypalModel
  CommentClaims FingerprintClaims ImportClaims BaseProofs CommentExamples ImportLaws TestsImport ImportExamples OcrModel OcrClaims OcrProofs
  PdfModel PdfClaims PdfTable PdfFold PdfLaws PdfLaws2 PdfExamples PdfMoneyClaims PdfMoney.
From Coq Require Import Lia QArith.
Local Open Scope nat_scope.

Definition is_digit (c : char) : bool := (48 <=? c)%N && (c <=? 57)%N.
Definition plain_decimal (s : str) : option decimal :=
  let P := take_while is_digit s in
  match drop_while is_digit s with
  | c :: F => if (c =? 46)%N && forallb is_digit F then Some (Dec false (N.of_nat (length F)) (number (P ++ F))) else None
  | [] => None
  end.
Lemma digit_spec c : is_digit c = true ↔ (48 ≤ c ≤ 57)%N.
Proof. unfold is_digit. rewrite andb_true_iff, !N.leb_le. done. Qed.
Lemma number_app P F : number (P ++ F) = (number P * 10 ^ N.of_nat (length F) + number F)%N.
Proof.
  assert (∀ F n, foldl (λ n c, 10 * n + (c - 48))%N n F = (n * 10 ^ N.of_nat (length F) + foldl (λ n c, 10 * n + (c - 48)) 0 F)%N) as H.
  { clear. induction F as [|x F IH]; intros n; [cbn; lia|]. cbn [foldl length]. rewrite IH, (IH (10 * 0 + (x - 48))%N).
    rewrite Nat2N.inj_succ, N.pow_succ_r'. nia. }
  unfold number. by rewrite foldl_app, H.
Qed.
Lemma take_drop_digits (P : str) c F : (∀ x, x ∈ P → is_digit x = true) → is_digit c = false →
  take_while is_digit (P ++ c :: F) = P ∧ drop_while is_digit (P ++ c :: F) = c :: F.
Proof.
  intros HP Hc. induction P as [|x P IH]; cbn; [by rewrite Hc|]. rewrite (HP x) by left.
  destruct IH as [-> ->]; [|done]. intros y Hy. apply HP. by right.
Qed.
Lemma plain_reads P F : digits P → digits F → plain_decimal (P ++ 46%N :: F) = Some (Dec false (N.of_nat (length F)) (number (P ++ F))).
Proof.
  intros [_ HP] [_ HF]. unfold plain_decimal. cbv zeta.
  destruct (take_drop_digits P 46%N F) as [E1 E2]; [intros x Hx; by apply digit_spec, HP|done|]. unfold str, char in *. rewrite E2.
  assert (@forallb N is_digit F = true) as -> by (apply forallb_forall; intros x Hx; apply digit_spec, HF; by apply elem_of_list_In).
  cbn [andb N.eqb Pos.eqb]. do 4 f_equal. exact E1.
Qed.
Lemma ten_pow n : inject_Z (10 ^ Z.of_nat n) ≠ 0%Q ∧ ¬ (inject_Z (10 ^ Z.of_nat n) == 0)%Q.
Proof. assert (0 < 10 ^ Z.of_nat n)%Z by (apply Z.pow_pos_nonneg; lia). unfold inject_Z, Qeq. split; [intros [=]|cbn]; lia. Qed.
Lemma plain_value (P F : str) : (dec_value (Dec false (N.of_nat (length F)) (number (P ++ F))) == text_value P F)%Q.
Proof.
  unfold dec_value, text_value. cbn [d_neg d_mant d_scale]. rewrite number_app. rewrite nat_N_Z.
  destruct (ten_pow (length F)) as [_ Hne]. rewrite N2Z.inj_add, N2Z.inj_mul, N2Z.inj_pow, nat_N_Z. change (Z.of_N 10) with 10%Z.
  rewrite inject_Z_plus, inject_Z_mult. field. exact Hne.
Qed.
Definition plain_env (E : pdf_env) : pdf_env := PdfEnv plain_decimal (pe_year E) (pe_day E) (pe_month E) (pe_effective E).
Lemma plain_env_reads E : reads_plain (plain_env E).
Proof.
  intros P F HP HF _. exists (Dec false (N.of_nat (length F)) (number (P ++ F))). split; [by apply plain_reads|]. split; [done|]. apply plain_value.
Qed.

Definition pm_env : pdf_env := plain_env pdf_ex_env.
Lemma pm_import b : pdf_import pm_env default_order ex_cur (ex_doc b) = Ok (s2l "cur", pdf_trns (ex_doc b)).
Proof. destruct b; vm_compute; reflexivity. Qed.
Lemma pm_lines b : statement_lines pm_env (ex_doc b) (pdf_lines (ex_doc b)).
Proof.
  pose proof (ex_doc_lines b) as (tabs & lss & used & H1 & H2 & H3 & H4). exists tabs, lss, used. split_and!; try done.
Qed.
Lemma money_text_check s : plain_decimal (filter (λ c, c ≠ 44%N) s) ≠ None → length s ≤ 29 →
  take_while is_digit (filter (λ c, c ≠ 44%N) s) ≠ [] → tail (drop_while is_digit (filter (λ c, c ≠ 44%N) s)) ≠ [] → ∃ q, money_text s q.
Proof.
  intros H Hl H1 H2. pose proof (filter_length (λ c, c ≠ 44%N) s) as Hfl. set (t := filter (λ c, c ≠ 44%N) s) in *.
  assert (t = take_while is_digit t ++ drop_while is_digit t) as Et.
  { clearbody t. clear. induction t as [|x t IH]; [done|]. cbn. destruct (is_digit x); [|done]. cbn. by f_equal. }
  assert (∀ x, x ∈ take_while is_digit t → is_digit x = true) as Ht.
  { clearbody t. clear. induction t as [|y t IH]; cbn; [by intros x Hx%elem_of_nil|]. intros x. destruct (is_digit y) eqn:Ey; [|by intros Hx%elem_of_nil].
    intros [->|Hx]%elem_of_cons; [done|]. by apply IH. }
  unfold plain_decimal in H. destruct (drop_while is_digit t) as [|c F] eqn:Ed; [done|]. cbn [tail] in H2.
  destruct (c =? 46)%N eqn:Ec; [|done]. apply N.eqb_eq in Ec as ->. destruct (forallb is_digit F) eqn:EF; [|done].
  exists (text_value (take_while is_digit t) F), (take_while is_digit t), F. split_and!.
  - split; [done|]. intros x Hx. by apply digit_spec, Ht.
  - split; [done|]. intros x Hx. apply digit_spec. by apply (proj1 (forallb_forall _ _) EF), elem_of_list_In.
  - apply (f_equal length) in Et. rewrite app_length in Et. cbn [length] in Et. unfold str, char in *. change (length (filter (λ c, c ≠ 44%N) s)) with (length t) in Hfl. lia.
  - done.
  - apply Qeq_refl.
Qed.
Lemma ex_money : ∃ q, money_text (s2l "1,250.00") q ∧ (q == 1250)%Q.
Proof.
  exists 1250%Q. split; [|apply Qeq_refl]. exists (s2l "1250"), (s2l "00").
  assert (∀ s, s ≠ [] → forallb is_digit s = true → digits s) as Hd.
  { intros s Hs H. split; [done|]. intros c Hc. by apply digit_spec, (proj1 (forallb_forall _ _) H), elem_of_list_In. }
  split; [apply Hd; by vm_compute|]. split; [apply Hd; by vm_compute|]. split; [vm_compute; lia|]. split; [vm_compute; reflexivity|]. vm_compute. reflexivity.
Qed.
Definition money_check (s : str) : bool :=
  match plain_decimal (filter (λ c, c ≠ 44%N) s) with Some _ => true | None => false end && (length s <=? 29) &&
  negb (bool_decide (take_while is_digit (filter (λ c, c ≠ 44%N) s) = [])) && negb (bool_decide (tail (drop_while is_digit (filter (λ c, c ≠ 44%N) s)) = [])).
Lemma money_check_ok s : money_check s = true → ∃ q, money_text s q.
Proof.
  unfold money_check. intros [[[H1 H2]%andb_true_iff H3]%andb_true_iff H4]%andb_true_iff. apply money_text_check.
  - by destruct (plain_decimal _).
  - by apply Nat.leb_le.
  - by apply negb_true_iff, bool_decide_eq_false in H3.
  - by apply negb_true_iff, bool_decide_eq_false in H4.
Qed.
Definition group_check (g : group) : bool :=
  match tl_date g.1 with Some _ => true | None => false end &&
  match tl_receipt g.1, tl_payment g.1 with Some s, None | None, Some s => money_check s | _, _ => false end &&
  forallb (λ l, match pe_effective pm_env (tl_detail l) with Some _ => true | None => negb (bool_decide (effective_line l)) end) g.2 &&
  forallb money_check (omap tl_balance (group_lines g)).
Lemma group_check_ok g : group_check g = true → readable_group pm_env g.
Proof.
  unfold group_check. intros [[[H1 H2]%andb_true_iff H3]%andb_true_iff H4]%andb_true_iff. constructor.
  - destruct (tl_date g.1); [by eexists|done].
  - destruct (tl_receipt g.1) as [s|], (tl_payment g.1) as [s'|]; try done; apply money_check_ok in H2 as [q Hq]; eexists _, q; (split; [exact Hq|]); auto.
  - intros l Hl He. rewrite forallb_forall in H3. apply elem_of_list_In in Hl. specialize (H3 l Hl). cbv beta in H3.
    destruct (pe_effective pm_env (tl_detail l)); [by eexists|]. by apply negb_true_iff, bool_decide_eq_false in H3.
  - intros s Hs. rewrite forallb_forall in H4. apply elem_of_list_In in Hs. by apply money_check_ok, H4.
Qed.
Lemma pm_readable g : g ∈ pdf_groups (ex_doc false) → readable_group pm_env g.
Proof.
  assert (forallb group_check (pdf_groups (ex_doc false)) = true) as H by (vm_compute; reflexivity).
  intros Hg. apply group_check_ok. rewrite forallb_forall in H. by apply H, elem_of_list_In.
Qed.

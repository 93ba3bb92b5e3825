(** Statements read with bounded numbers (C126). *)
From Verif Require Import MergeClaims.
From Verif Require Import Base Types BaseProofs CommentModel FingerprintModel NwCsvModel PaypalModel ImportClaims ImportProofs ImportMoney
  NwI64Model NwI64Claims.
From Coq Require Import Lia QArith.
Local Open Scope Z_scope.

(** What a result becomes: the same; or, without checks, something else than a panic. *)
Definition sim {A} (c : bool) (r r' : result A) : Prop :=
  (r' = r ∧ (c = false → r ≠ Panic)) ∨ (r = Panic ∧ c = false ∧ r' ≠ Panic).
Lemma sim_same {A} c (r : result A) : r ≠ Panic → sim c r r.
Proof. intros H. by left. Qed.
Lemma sim_checked {A} (r r' : result A) : sim true r r' → r' = r.
Proof. by intros [[-> _]|(_ & ? & _)]. Qed.
Lemma sim_unchecked {A} (r r' : result A) : sim false r r' → r' ≠ Panic ∧ (r ≠ Panic → r' = r).
Proof. intros [[-> H]|(-> & _ & H)]; [by split; [apply H|]|by split]. Qed.
Lemma sim_bind {A B} c (P : A → Prop) (r r' : result A) (k k' : A → result B) :
  sim c r r' → (∀ a, r = Ok a → P a) → (∀ a, r' = Ok a → P a) → (∀ a, P a → sim c (k a) (k' a)) →
  sim c (rbind r k) (rbind r' k').
Proof.
  intros H H1 H2 Hk. destruct H as [[-> HP]|(-> & -> & HP)].
  - destruct r as [a|e|]; cbn [rbind]; [apply Hk, H1; done|by apply sim_same|].
    left. split; [done|]. intros Hc. by destruct (HP Hc).
  - cbn [rbind]. right. split_and!; [done|done|]. destruct r' as [a|e|]; cbn [rbind]; [|done|done].
    by apply (sim_unchecked (k a) (k' a)), Hk, H2.
Qed.
Lemma sim_bind' {A B} c (r r' : result A) (k k' : A → result B) :
  sim c r r' → (∀ a, sim c (k a) (k' a)) → sim c (rbind r k) (rbind r' k').
Proof. intros H Hk. by apply (sim_bind c (λ _, True)). Qed.
Lemma sim_let {A B} c (r : result A) (k k' : A → result B) :
  r ≠ Panic → (∀ a, sim c (k a) (k' a)) → sim c (rbind r k) (rbind r k').
Proof. intros H Hk. apply sim_bind'; [by apply sim_same|done]. Qed.

(** ** Bounded numbers *)
Lemma signed_of_spec half c z : 0 < half → 
  ((- half ≤ z < half) ∧ signed_of half c z = Ok z) ∨
  ((z < - half ∨ half ≤ z) ∧ signed_of half c z = if c then Panic else Ok (wrap_at half z)).
Proof.
  intros Hh. unfold signed_of. destruct (Z.leb_spec (- half) z), (Z.ltb_spec z half); cbn [andb].
  - left. split; [lia|done].
  - right. split; [lia|done].
  - right. split; [lia|done].
  - right. split; [lia|done].
Qed.
Lemma wrap_range half z : 0 < half → - half ≤ wrap_at half z < half.
Proof. intros Hh. unfold wrap_at. pose proof (Z.mod_pos_bound (z + half) (2 * half)). lia. Qed.
Lemma wrap_sum half z y : 0 < half → wrap_at half (wrap_at half z + y) = wrap_at half (z + y).
Proof.
  intros Hh. unfold wrap_at. f_equal.
  replace ((z + half) mod (2 * half) - half + y + half) with ((z + half) mod (2 * half) + y) by lia.
  rewrite Z.add_mod_idemp_l by lia. f_equal. lia.
Qed.
Lemma wrap_id half z : - half ≤ z < half → wrap_at half z = z.
Proof. intros H. unfold wrap_at. rewrite Z.mod_small; lia. Qed.

(** ** Money *)
Definition M : Z := 9223372036854775808.
(** The two operations are one. *)
Lemma money_sum c p q : 0 ≤ p → 0 ≤ q ≤ 9223372036854775807 →
  (let! product := i64_of c (p * 100) in i64_of c (product + q)) =
  if p * 100 + q <? M then Ok (p * 100 + q) else if c then Panic else Ok (wrap_at M (p * 100 + q)).
Proof.
  intros Hp Hq. unfold i64_of. change 9223372036854775808 with M in *.
  assert (0 < M) as HM by done. assert (M = 9223372036854775808) as EM by done.
  destruct (signed_of_spec M c (p * 100) HM) as [[H ->]|[H ->]].
  - cbn [rbind]. destruct (signed_of_spec M c (p * 100 + q) HM) as [[H1 ->]|[H1 ->]].
    + by rewrite (proj2 (Z.ltb_lt _ _)) by lia.
    + by rewrite (proj2 (Z.ltb_ge _ _)) by lia.
  - rewrite (proj2 (Z.ltb_ge _ _)) by lia. destruct c; [done|]. cbn [rbind].
    rewrite <-(wrap_sum M (p * 100) q HM).
    destruct (signed_of_spec M false (wrap_at M (p * 100) + q) HM) as [[H1 ->]|[H1 ->]]; [|done].
    by rewrite (wrap_id M _ H1).
Qed.
Lemma gbp_value_i64_eq c s : gbp_value_i64 c s =
  match gbp_rx s with
  | None => Err EBadAmount
  | Some (sign, pounds, pence) =>
      let! pounds := parse_i64 pounds in
      let! pence := parse_i64 pence in
      let n := (pounds * 100 + pence)%N in
      if (n <=? I64_MAX)%N then Ok (Amount (Dec (str_eqb sign [MINUS]) 2 n) GBP)
      else if c then Panic else Ok (Amount (Dec (str_eqb sign [MINUS]) 2 (Z.abs_N (wrap_at M (Z.of_N n)))) GBP)
  end.
Proof.
  unfold gbp_value_i64. destruct (gbp_rx s) as [[[sg P] F]|]; [|done].
  destruct (parse_i64 P) as [p|e|] eqn:EP; cbn [rbind]; [|done|done].
  destruct (parse_i64 F) as [q|e|] eqn:EF; cbn [rbind]; [|done|done].
  assert (q ≤ I64_MAX)%N as Hq.
  { unfold parse_i64 in EF. destruct (forallb ascii_digit F); cbn [andb] in EF; [|done].
    destruct (N.leb_spec (parse_digits F) I64_MAX); [|done]. apply Ok_inj in EF. by subst. }
  assert (∀ (r1 : result Z) (k : Z → result Z) (f : Z → amount),
    (let! a := r1 in let! b := k a in Ok (f b)) = let! b := (let! a := r1 in k a) in Ok (f b)) as assoc.
  { intros r1 k f. by destruct r1. }
  rewrite assoc. rewrite (money_sum c (Z.of_N p) (Z.of_N q)); [|lia|].
  2:{ unfold I64_MAX in Hq. lia. }
  replace (Z.of_N p * 100 + Z.of_N q) with (Z.of_N (p * 100 + q)) by lia.
  cbv zeta. set (n := (p * 100 + q)%N).
  destruct (Z.ltb_spec (Z.of_N n) M) as [H|H], (N.leb_spec n I64_MAX) as [H1|H1]; unfold M, I64_MAX in H, H1; try lia.
  - cbn [rbind]. unfold set_sign_negative, decimal_new. cbn [d_scale d_mant]. do 3 f_equal. by rewrite Zabs2N.id.
  - by destruct c.
Qed.
Lemma gbp_value_eq s : gbp_value s = gbp_value_i64 true s.
Proof.
  rewrite gbp_value_i64_eq. unfold gbp_value. destruct (gbp_rx s) as [[[sg P] F]|]; [|done]. done.
Qed.
Lemma gbp_sim c s : sim c (gbp_value s) (gbp_value_i64 c s).
Proof.
  rewrite gbp_value_i64_eq. unfold gbp_value. destruct (gbp_rx s) as [[[sg P] F]|]; [|by apply sim_same].
  assert (∀ t, parse_i64 t ≠ Panic) as Hp. { intros t. unfold parse_i64. by destruct (_ && _). }
  apply sim_let; [done|]. intros p. apply sim_let; [done|]. intros q. cbv zeta.
  destruct (_ <=? _)%N; [by apply sim_same|]. destruct c; [by left|by right].
Qed.
(** A panic only for amounts that do not fit. *)
Lemma gbp_panic s : gbp_value s = Panic → too_large s.
Proof.
  unfold gbp_value. destruct (gbp_rx s) as [[[sg P] F]|] eqn:E; [|done].
  apply gbp_rx_Some in E as (pre & neg & post & -> & -> & HP & HF).
  destruct (parse_i64 P) as [p|e|] eqn:EP; cbn [rbind]; [| done |unfold parse_i64 in EP; by destruct (_ && _)].
  destruct (parse_i64 F) as [q|e|] eqn:EF; cbn [rbind]; [| done |unfold parse_i64 in EF; by destruct (_ && _)].
  apply parse_i64_ok in EP as (DP & -> & _); [|done]. apply parse_i64_ok in EF as (DF & -> & _); [|done].
  destruct (N.leb_spec (number P * 100 + number F) I64_MAX) as [H|H]; [done|]. intros _.
  exists pre, neg, P, F, post. split_and!; [done|done|done|].
  change (2 ^ 63)%N with 9223372036854775808%N. unfold I64_MAX in H. lia.
Qed.

(** ** Statements *)
Definition in_i32 (z : Z) : Prop := - 2147483648 ≤ z ≤ I32_MAX.
Lemma i32_spec c z : in_i32 z →
  (z < I32_MAX ∧ i32_sum c (z + 1) = Ok (z + 1)) ∨ (z = I32_MAX ∧ i32_sum c (z + 1) = if c then Panic else Ok (-2147483648)).
Proof.
  unfold in_i32, I32_MAX. intros Hz. unfold i32_sum.
  destruct (signed_of_spec 2147483648 c (z + 1)) as [[H ->]|[H ->]]; [done| |].
  - left. split; [lia|done].
  - right. assert (z = 2147483647) as -> by lia. done.
Qed.
Lemma seq_sim c ns n : in_i32 n → sim c (seq_value ns n) (seq_value_i32 c ns n).
Proof.
  intros Hn. unfold seq_value, seq_value_i32. destruct (i32_spec c n Hn) as [[H ->]|[-> ->]].
  - rewrite (proj2 (Z.eqb_neq _ _)) by lia. cbn [rbind]. by apply sim_same.
  - rewrite Z.eqb_refl. destruct c; [by left|by right].
Qed.
Lemma next_sim c prev n d : in_i32 n → sim c (next_counter prev n d) (next_counter_i32 c prev n d).
Proof.
  intros Hn. unfold next_counter, next_counter_i32. destruct (bool_decide _); [|by apply sim_same].
  destruct (i32_spec c n Hn) as [[H ->]|[-> ->]].
  - rewrite (proj2 (Z.eqb_neq _ _)) by lia. by apply sim_same.
  - rewrite Z.eqb_refl. destruct c; [by left|by right].
Qed.
Lemma next_range prev n d n' : in_i32 n → next_counter prev n d = Ok n' → in_i32 n'.
Proof.
  unfold next_counter, in_i32. intros Hn. destruct (bool_decide _).
  - destruct (Z.eqb_spec n I32_MAX); [done|]. intros H%Ok_inj. lia.
  - intros H%Ok_inj. subst n'. done.
Qed.
Lemma next_range_i32 c prev n d n' : in_i32 n → next_counter_i32 c prev n d = Ok n' → in_i32 n'.
Proof.
  unfold next_counter_i32. intros Hn. destruct (bool_decide _).
  - destruct (i32_spec c n Hn) as [[H ->]|[-> ->]].
    + intros E%Ok_inj. unfold in_i32 in *. lia.
    + destruct c; [done|]. intros E%Ok_inj. by subst n'.
  - intros H%Ok_inj. by subst n'.
Qed.
Lemma self_amount_total pi po : self_amount_of pi po ≠ Panic.
Proof. by destruct pi, po. Qed.
Lemma builder_new_total a v n : builder_new a v n ≠ Panic.
Proof. unfold builder_new. by repeat case_match. Qed.
Lemma five_fp_total r ns n : five_fingerprint_v1 r ns n ≠ Panic.
Proof. unfold five_fingerprint_v1. pose proof (builder_new_total (s2l "nwcsv5") 1 ns) as H. by destruct (builder_new _ _ _). Qed.
Lemma six_fp_total r ns n : six_fingerprint_v1 r ns n ≠ Panic.
Proof. unfold six_fingerprint_v1. pose proof (builder_new_total (s2l "nwcsv6") 1 ns) as H. by destruct (builder_new _ _ _). Qed.
Lemma legacy_fp_total r ns n h : six_fingerprint_legacy r ns n h ≠ Panic.
Proof. unfold six_fingerprint_legacy. pose proof (builder_new_total [] 0 ns) as H. by destruct (builder_new _ _ _). Qed.
Lemma form_sim c ho r ns name n legacy : in_i32 n →
  sim c (rec_form_postings ho r ns name n legacy) (rec_form_postings_i64 c ho r ns name n legacy).
Proof.
  intros Hn. destruct r as [r|r]; cbn [rec_form_postings rec_form_postings_i64].
  - unfold five_form_postings, five_form_postings_i64. apply sim_let; [apply self_amount_total|]. intros a. cbv zeta.
    apply sim_let; [apply five_fp_total|]. intros fp.
    apply sim_bind'; [by apply seq_sim|]. intros sq. by apply sim_same.
  - unfold six_form_postings, six_form_postings_i64. apply sim_let; [apply self_amount_total|]. intros a. cbv zeta.
    apply sim_let; [apply six_fp_total|]. intros fp.
    apply sim_bind'; [by apply seq_sim|]. intros sq. apply sim_same.
    destruct legacy; [|done].
    pose proof (legacy_fp_total r ns n (self_and_peer_account_amount a ASSETS_UNKNOWN)) as H.
    by destruct (six_fingerprint_legacy _ _ _ _).
Qed.
Lemma opt_sim c s : sim c (de_opt_gbp s) (de_opt_gbp_i64 c s).
Proof.
  unfold de_opt_gbp, de_opt_gbp_i64. destruct s as [|x s]; [by apply sim_same|].
  unfold rmap. apply sim_bind'; [apply gbp_sim|]. intros a. by apply sim_same.
Qed.
Lemma date_total pd d : de_date pd d ≠ Panic.
Proof. unfold de_date. by destruct (pd d). Qed.
Lemma five_sim c pd row : sim c (de_five pd row) (de_five_i64 c pd row).
Proof.
  unfold de_five, de_five_i64. destruct row as [|d [|t [|l [|po [|pi rest]]]]]; [by apply sim_same..|].
  apply sim_let; [apply date_total|]. intros dd. apply sim_bind'; [apply opt_sim|]. intros x.
  apply sim_bind'; [apply opt_sim|]. intros y. by apply sim_same.
Qed.
Lemma six_sim c pd row : sim c (de_six pd row) (de_six_i64 c pd row).
Proof.
  unfold de_six, de_six_i64. destruct row as [|d [|t [|l [|po [|pi [|b rest]]]]]]; [by apply sim_same..|].
  apply sim_let; [apply date_total|]. intros dd. apply sim_bind'; [apply opt_sim|]. intros x.
  apply sim_bind'; [apply opt_sim|]. intros y. apply sim_bind'; [apply gbp_sim|]. intros z. by apply sim_same.
Qed.
Lemma rows_sim c de de' ho legacy ns name prev n rows : (∀ row, sim c (de row) (de' row)) → in_i32 n →
  sim c (process_rows de ho legacy ns name prev n rows) (process_rows_i64 c de' ho legacy ns name prev n rows).
Proof.
  intros Hde. revert prev n. induction rows as [|row rows IH]; intros prev n Hn; cbn [process_rows process_rows_i64]; [by apply sim_same|].
  apply sim_bind'; [done|]. intros r. cbv zeta.
  apply (sim_bind c in_i32); [by apply next_sim|..].
  - intros n'. by apply next_range.
  - intros n'. by apply next_range_i32.
  - intros n' Hn'. apply sim_bind'; [by apply form_sim|]. intros ps. apply sim_bind'; [by apply IH|]. intros ts. by apply sim_same.
Qed.
Lemma zero_in_i32 : in_i32 0.
Proof. by unfold in_i32, I32_MAX. Qed.
Lemma file_sim c pd ho o ns name records : sim c (process_file pd ho o ns name records) (process_file_i64 c pd ho o ns name records).
Proof.
  unfold process_file, process_file_i64. destruct records as [|h rows]; [by apply sim_same|].
  destruct (bool_decide _); [|destruct (bool_decide _)]; [..|by apply sim_same].
  - apply rows_sim; [|exact zero_in_i32]. intros row. unfold rmap. apply sim_bind'; [apply five_sim|]. intros r. by apply sim_same.
  - apply rows_sim; [|exact zero_in_i32]. intros row. unfold rmap. apply sim_bind'; [apply six_sim|]. intros r. by apply sim_same.
Qed.
Lemma check_header_total a b : check_header a b ≠ Panic.
Proof. unfold check_header. by destruct (str_eqb a b). Qed.
Lemma account_name_total r : account_name_record r ≠ Panic.
Proof.
  unfold account_name_record. destruct r as [|h [|n rest]]; [done..|].
  pose proof (check_header_total (s2l "Account Name:") h) as H. by destruct (check_header _ _).
Qed.
Lemma quantity_sim c want r : sim c (quantity_record want r) (quantity_record_i64 c want r).
Proof.
  unfold quantity_record, quantity_record_i64. destruct r as [|h [|v rest]]; [by apply sim_same..|].
  apply sim_bind'; [apply gbp_sim|]. intros a. apply sim_same, check_header_total.
Qed.
Lemma namespace_total o name : make_namespace o name ≠ Panic.
Proof. unfold make_namespace. by repeat case_match. Qed.
Lemma import_sim c pd ho o records : sim c (nw_csv_import pd ho o records) (nw_csv_import_i64 c pd ho o records).
Proof.
  unfold nw_csv_import, nw_csv_import_i64. destruct records as [|n [|b [|a rest]]]; [by apply sim_same..|].
  apply sim_let; [apply account_name_total|]. intros name.
  apply sim_bind'; [apply quantity_sim|]. intros _. apply sim_bind'; [apply quantity_sim|]. intros _.
  apply sim_let; [apply namespace_total|]. intros ns.
  apply sim_bind'; [apply file_sim|]. intros ts. by apply sim_same.
Qed.
Lemma import_checked pd ho o records : nw_csv_import_i64 true pd ho o records = nw_csv_import pd ho o records.
Proof. by apply sim_checked, import_sim. Qed.
Lemma import_unchecked pd ho o records : nw_csv_import_i64 false pd ho o records ≠ Panic ∧
  (nw_csv_import pd ho o records ≠ Panic → nw_csv_import_i64 false pd ho o records = nw_csv_import pd ho o records).
Proof. by apply sim_unchecked, import_sim. Qed.

(** ** No panic *)
Lemma bind_total {A B} (r : result A) (k : A → result B) : r ≠ Panic → (∀ a, r = Ok a → k a ≠ Panic) → rbind r k ≠ Panic.
Proof. intros H Hk. destruct r as [a|e|]; cbn [rbind]; [by apply Hk|done|done]. Qed.
Definition cells_fit (row : csv_record) : Prop := ∀ s, s ∈ row → ¬ too_large s.
Lemma gbp_total s : ¬ too_large s → gbp_value s ≠ Panic.
Proof. intros H E. by apply H, gbp_panic. Qed.
Lemma opt_total s : ¬ too_large s → de_opt_gbp s ≠ Panic.
Proof.
  intros H. unfold de_opt_gbp. destruct s as [|x s]; [done|]. unfold rmap. apply bind_total; [by apply gbp_total|done].
Qed.
Lemma five_total pd row : cells_fit row → de_five pd row ≠ Panic.
Proof.
  intros H. unfold de_five. destruct row as [|d [|t [|l [|po [|pi rest]]]]]; [done..|].
  apply bind_total; [apply date_total|]. intros dd _.
  apply bind_total; [apply opt_total, H; do 3 right; left|]. intros x _.
  apply bind_total; [apply opt_total, H; do 4 right; left|]. done.
Qed.
Lemma six_total pd row : cells_fit row → de_six pd row ≠ Panic.
Proof.
  intros H. unfold de_six. destruct row as [|d [|t [|l [|po [|pi [|b rest]]]]]]; [done..|].
  apply bind_total; [apply date_total|]. intros dd _.
  apply bind_total; [apply opt_total, H; do 3 right; left|]. intros x _.
  apply bind_total; [apply opt_total, H; do 4 right; left|]. intros y _.
  apply bind_total; [apply gbp_total, H; do 5 right; left|]. done.
Qed.
Lemma form_total ho r ns name n legacy : n < I32_MAX → rec_form_postings ho r ns name n legacy ≠ Panic.
Proof.
  intros Hn. assert (seq_value ns n ≠ Panic) as Hs.
  { unfold seq_value. by rewrite (proj2 (Z.eqb_neq _ _)) by lia. }
  destruct r as [r|r]; cbn [rec_form_postings].
  - unfold five_form_postings. apply bind_total; [apply self_amount_total|]. intros a _. cbv zeta.
    apply bind_total; [apply five_fp_total|]. intros fp _. apply bind_total; [done|]. done.
  - unfold six_form_postings. apply bind_total; [apply self_amount_total|]. intros a _. cbv zeta.
    apply bind_total; [apply six_fp_total|]. intros fp _. apply bind_total; [done|]. intros sq _.
    apply bind_total; [|by intros []]. destruct legacy; [|done].
    apply bind_total; [apply legacy_fp_total|done].
Qed.
Lemma rows_total de ho legacy ns name prev n rows : (∀ row, row ∈ rows → de row ≠ Panic) → n + Z.of_nat (length rows) < I32_MAX →
  -1 ≤ n → process_rows de ho legacy ns name prev n rows ≠ Panic.
Proof.
  revert prev n. induction rows as [|row rows IH]; intros prev n Hde Hlen Hn; cbn [process_rows]; [done|].
  cbn [length] in Hlen. apply bind_total; [apply Hde; left|]. intros r _. cbv zeta.
  assert (∀ n', next_counter prev n (rec_date r) = Ok n' → 0 ≤ n' ≤ n + 1) as Hc.
  { intros n'. unfold next_counter. destruct (bool_decide _).
    - destruct (Z.eqb_spec n I32_MAX); [done|]. intros H%Ok_inj. lia.
    - intros H%Ok_inj. lia. }
  apply bind_total.
  { unfold next_counter. destruct (bool_decide _); [|done]. by rewrite (proj2 (Z.eqb_neq _ _)) by lia. }
  intros n' Hn'%Hc. apply bind_total; [apply form_total; lia|]. intros ps _.
  apply bind_total; [|done]. apply IH; [|lia|lia]. intros row' H. apply Hde. by right.
Qed.
Lemma import_total pd ho o records : (∀ row, row ∈ records → cells_fit row) → Z.of_nat (length records) ≤ 2147483647 →
  nw_csv_import pd ho o records ≠ Panic.
Proof.
  intros H Hlen. unfold nw_csv_import. destruct records as [|n [|b [|a rest]]]; [done..|].
  apply bind_total; [apply account_name_total|]. intros name _.
  assert (∀ want row, cells_fit row → quantity_record want row ≠ Panic) as Hq.
  { intros want row Hr. unfold quantity_record. destruct row as [|h [|v row]]; [done..|].
    apply bind_total; [apply gbp_total, Hr; do 1 right; left|]. intros _ _. apply check_header_total. }
  apply bind_total; [apply Hq, H; do 1 right; left|]. intros _ _.
  apply bind_total; [apply Hq, H; do 2 right; left|]. intros _ _.
  apply bind_total; [apply namespace_total|]. intros ns _.
  apply bind_total; [|done]. unfold process_file. destruct rest as [|h rows]; [done|].
  cbn [length] in Hlen.
  assert (∀ row, row ∈ rows → cells_fit row) as Hr. { intros row Hrow. apply H. by do 4 right. }
  destruct (bool_decide _); [|destruct (bool_decide _)]; [..|done].
  - apply rows_total; [|unfold I32_MAX; lia|lia]. intros row Hrow. unfold rmap. apply bind_total; [by apply five_total, Hr|done].
  - apply rows_total; [|unfold I32_MAX; lia|lia]. intros row Hrow. unfold rmap. apply bind_total; [by apply six_total, Hr|done].
Qed.

(** ** What becomes of an amount that does not fit *)
Lemma wrap_exact n : 0 ≤ n → Z.abs (wrap_at M n) = n ↔ n ≤ M.
Proof.
  intros Hn. assert (M = 9223372036854775808) as EM by done.
  pose proof (wrap_range M n) as Hr. split.
  - intros H. lia.
  - intros H. destruct (decide (n = M)) as [->|]; [done|]. rewrite wrap_id by lia. lia.
Qed.
Lemma gbp_wrapped neg P F : digits P → digits F → (number P < 2 ^ 63)%N → (number F < 2 ^ 63)%N →
  ∃ m, gbp_value_i64 false (POUND :: sign_text neg ++ P ++ DOT :: F) = Ok (Amount (Dec neg 2 m) GBP) ∧
    (m = number P * 100 + number F ↔ number P * 100 + number F ≤ 2 ^ 63)%N.
Proof.
  intros DP DF HP HF. change (2 ^ 63)%N with 9223372036854775808%N in *.
  rewrite gbp_value_i64_eq, (gbp_rx_digits neg P F DP DF).
  assert (parse_i64 P = Ok (number P)) as ->.
  { apply parse_i64_ok; [by destruct DP|]. unfold I64_MAX. split_and!; [done|done|lia]. }
  assert (parse_i64 F = Ok (number F)) as ->.
  { apply parse_i64_ok; [by destruct DF|]. unfold I64_MAX. split_and!; [done|done|lia]. }
  cbn [rbind]. cbv zeta. rewrite sign_eqb. set (n := (number P * 100 + number F)%N).
  destruct (N.leb_spec n I64_MAX) as [H|H]; unfold I64_MAX in H.
  - exists n. split; [done|]. split; [intros _; lia|done].
  - exists (Z.abs_N (wrap_at M (Z.of_N n))). split; [done|].
    pose proof (wrap_exact (Z.of_N n)) as W. unfold M in *. lia.
Qed.

Lemma import_fits pd ho o records : (∀ row s, row ∈ records → s ∈ row → ¬ too_large s) →
  (Z.of_nat (length records) < 2 ^ 31) → nw_csv_import pd ho o records ≠ Panic.
Proof.
  intros H Hl. apply import_total; [|change (2 ^ 31) with 2147483648 in Hl; lia]. intros row Hr s Hs. by apply (H row s).
Qed.
Lemma import_i64_transfer c pd ho o records r : (∀ row s, row ∈ records → s ∈ row → ¬ too_large s) →
  (Z.of_nat (length records) < 2 ^ 31) → nw_csv_import_i64 c pd ho o records = r ↔ nw_csv_import pd ho o records = r.
Proof.
  intros H Hl. destruct c; [by rewrite import_checked|]. rewrite (proj2 (import_unchecked pd ho o records)); [done|].
  by apply import_fits.
Qed.
Lemma import_i64_total c pd ho o records : (∀ row s, row ∈ records → s ∈ row → ¬ too_large s) →
  (Z.of_nat (length records) < 2 ^ 31) → nw_csv_import_i64 c pd ho o records ≠ Panic.
Proof. intros H Hl E. by apply (import_fits pd ho o records H Hl), (import_i64_transfer c pd ho o records Panic H Hl). Qed.
Lemma import_i64_same pd ho o records : nw_csv_import_i64 true pd ho o records ≠ Panic →
  nw_csv_import_i64 false pd ho o records = nw_csv_import_i64 true pd ho o records.
Proof. rewrite import_checked. apply import_unchecked. Qed.

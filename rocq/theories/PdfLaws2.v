(** Further laws of the PDF importer (C77-C83). *)
From Verif Require Import MergeClaims.
From Verif Require Import Base Types SpecBase BaseProofs StrProofs CommentModel MergeModel Sha1 FingerprintModel NwCsvModel PaypalModel
  CommentClaims FingerprintClaims FingerprintProofs FingerprintLaws ImportClaims ImportProofs OcrModel OcrClaims OcrProofs PdfModel PdfClaims PdfTable PdfFold PdfLaws.
From Coq Require Import Lia.
Local Open Scope nat_scope.

(** ** Panics *)
Lemma rbind_panic {A B} (r : result A) (k : A → result B) : r ≠ Panic → (∀ x, r = Ok x → k x ≠ Panic) → rbind r k ≠ Panic.
Proof. destruct r; cbn; intros H1 H2; [by apply H2|done|done]. Qed.
Lemma read_table_no_panic E c y d ls : read_table_lines E c y d ls ≠ Panic.
Proof.
  revert y d. induction ls as [|l ls IH]; intros y d; cbn [read_table_lines]; [done|].
  apply rbind_panic.
  - unfold update_date_from_line, from_ymd. repeat case_match; done.
  - intros [[f y'] d'] _. apply rbind_panic; [apply IH|]. intros rest _. by repeat case_match.
Qed.
Lemma parse_amount_no_panic E s : parse_amount E s ≠ Panic.
Proof. unfold parse_amount. repeat case_match; done. Qed.
Lemma builder_new_no_panic a v n : builder_new a v n ≠ Panic.
Proof. unfold builder_new. repeat case_match; done. Qed.
(** The counter of the transaction being built is the last one. *)
Definition acc_below (n : nat) (a : pdf_acc) : Prop :=
  (0 ≤ ac_counter a < I32_MAX - Z.of_nat n)%Z ∧ ∀ b, ac_current a = Some b → (tb_counter b < I32_MAX - Z.of_nat n)%Z.
Lemma build_trn_no_panic ho ns b : tb_counter b ≠ I32_MAX → build_trn ho ns b ≠ Panic.
Proof.
  intros H. unfold build_trn. apply rbind_panic; [apply builder_new_no_panic|]. intros fb _. apply rbind_panic; [|done].
  unfold seq_value. by rewrite (proj2 (Z.eqb_neq _ _) H).
Qed.
Lemma flush_no_panic ho n a : acc_below n a → flush_transaction ho a ≠ Panic.
Proof.
  intros [_ H]. unfold flush_transaction. destruct (ac_current a) as [b|]; [|done]. apply rbind_panic; [|done].
  apply build_trn_no_panic. specialize (H b eq_refl). lia.
Qed.
Lemma end_line_below E n a l : acc_below n a → end_line E a l ≠ Panic ∧ ∀ a', end_line E a l = Ok a' → acc_below n a'.
Proof.
  intros [H1 H2]. unfold end_line. destruct (ac_current a) as [b|] eqn:Eb, (tl_balance l) as [x|].
  - split; [apply rbind_panic; [apply parse_amount_no_panic|done]|]. intros a' (y & _ & [= <-])%rbind_ok. split; [done|].
    intros b' [= <-]. exact (H2 b eq_refl).
  - split; [done|]. intros a' [= <-]. split; [done|]. intros b' Hb'. cbn in Hb'. by apply H2.
  - split; [done|]. intros a' [= <-]. split; [done|]. done.
  - split; [done|]. intros a' [= <-]. split; [done|]. done.
Qed.
Lemma start_below E ho n a l s ty : acc_below (S n) a → start_transaction E ho a l s ty ≠ Panic ∧
  ∀ a', start_transaction E ho a l s ty = Ok a' → acc_below n a'.
Proof.
  intros Ha. unfold start_transaction. split.
  - apply rbind_panic; [by eapply flush_no_panic|]. intros a1 Hf.
    assert (ac_counter a1 = ac_counter a) as Hc.
    { unfold flush_transaction in Hf. destruct (ac_current a); [apply rbind_ok in Hf as (? & _ & [= <-])|injection Hf as <-]; done. }
    apply rbind_panic.
    + destruct Ha as [Ha _]. case_bool_decide; [|done]. destruct (Z.eqb_spec (ac_counter a1) I32_MAX); [lia|done].
    + intros c _. apply rbind_panic; [apply parse_amount_no_panic|]. intros x _. apply rbind_panic; [|done].
      unfold builder_of. by repeat case_match.
  - intros a' (a1 & Hf & H)%rbind_ok. assert (ac_counter a1 = ac_counter a) as Hc.
    { unfold flush_transaction in Hf. destruct (ac_current a); [apply rbind_ok in Hf as (? & _ & [= <-])|injection Hf as <-]; done. }
    apply rbind_ok in H as (c & Hcc & H). apply rbind_ok in H as (x & _ & H). apply rbind_ok in H as (b & Hb & [= <-]).
    destruct Ha as [Ha1 Ha2].
    assert (0 ≤ c < I32_MAX - Z.of_nat n)%Z as Hlt.
    { case_bool_decide; [|injection Hcc as <-; lia]. destruct (Z.eqb _ _); [done|]. injection Hcc as <-. lia. }
    split; [exact Hlt|]. intros b' [= <-]. unfold builder_of in Hb.
    destruct (tl_date l); [|done]. destruct (d_neg _); [done|]. injection Hb as <-. apply Hlt.
Qed.
Lemma feed_below E ho n a l : acc_below (S n) a → feed_line E ho a l ≠ Panic ∧ ∀ a', feed_line E ho a l = Ok a' → acc_below n a'.
Proof.
  intros Ha. assert (acc_below n a) as Ha'.
  { destruct Ha as [H1 H2]. split; [lia|]. intros b Hb. specialize (H2 b Hb). lia. }
  unfold feed_line. destruct (tl_payment l) as [s|], (tl_receipt l) as [s'|].
  - done.
  - destruct (start_below E ho n a l s Payment Ha) as [H1 H2]. split.
    + apply rbind_panic; [done|]. intros x Hx. by apply (end_line_below E n); auto.
    + intros a' (x & Hx & H)%rbind_ok. by eapply end_line_below; [apply H2|].
  - destruct (start_below E ho n a l s' Receipt Ha) as [H1 H2]. split.
    + apply rbind_panic; [done|]. intros x Hx. by apply (end_line_below E n); auto.
    + intros a' (x & Hx & H)%rbind_ok. by eapply end_line_below; [apply H2|].
  - destruct (ac_current a) as [b|] eqn:Eb; [|split; [done|]; intros a' [= <-]; done].
    set (r := match tl_detail l with [] => _ | _ => _ end).
    assert (r ≠ Panic ∧ ∀ b', r = Ok b' → tb_counter b' = tb_counter b) as [Hr1 Hr2].
    { unfold r. repeat case_match; (split; [done|]); intros b' Hb'; try done; by injection Hb' as <-. }
    clearbody r. assert (∀ b', r = Ok b' → acc_below n (Accumulator (ac_ns a) (Some b') (ac_prev_date a) (ac_counter a) (ac_trns a))) as Hb.
    { intros b' Hb'. destruct Ha' as [H1 H2]. split; [done|]. intros b2 [= <-]. rewrite (Hr2 b' Hb'). by apply H2. }
    split.
    + apply rbind_panic; [done|]. intros x Hx. by apply (end_line_below E n); auto.
    + intros a' (x & Hx & H)%rbind_ok. by eapply end_line_below; [apply Hb|].
Qed.
Lemma lines_below E ho n prev a ls : acc_below (length ls + n) a → lines_to_transactions E ho prev a ls ≠ Panic ∧
  ∀ a', lines_to_transactions E ho prev a ls = Ok a' → acc_below n a'.
Proof.
  revert prev a. induction ls as [|l ls IH]; intros prev a Ha; cbn [lines_to_transactions].
  - split; [done|]. intros a' [= <-]. done.
  - destruct (match prev with Some _ => _ | None => _ end).
    + split; [done|]. intros a' [= <-]. destruct Ha as [H1 H2]. split; [lia|]. intros b Hb. specialize (H2 b Hb). lia.
    + destruct (feed_below E ho (length ls + n) a l Ha) as [H1 H2]. split.
      * apply rbind_panic; [done|]. intros x Hx. by apply IH, H2.
      * intros a' (x & Hx & H)%rbind_ok. eapply IH; [by apply H2|exact H].
Qed.
Lemma acc_below_le n m a : n ≤ m → acc_below m a → acc_below n a.
Proof. intros Hn [H1 H2]. split; [lia|]. intros b Hb. specialize (H2 b Hb). lia. Qed.
Lemma read_table_length E c y d ls rs : read_table_lines E c y d ls = Ok rs → length rs ≤ length ls.
Proof.
  revert y d rs. induction ls as [|l ls IH]; intros y d rs; cbn [read_table_lines].
  - intros [= <-]. done.
  - intros ([[f y'] d'] & _ & H)%rbind_ok. apply rbind_ok in H as (rest & Hr%IH & H).
    destruct f; [destruct (join_words_in _ _)| |destruct (join_words_in _ _)]; injection H as <-; cbn [length]; lia.
Qed.
Lemma read_tables_below E ho n a ts : acc_below (length (ts ≫= λ t, pa_lines (tb_para t)) + n) a →
  read_tables E ho a ts ≠ Panic ∧ ∀ a', read_tables E ho a ts = Ok a' → acc_below n a'.
Proof.
  revert a. induction ts as [|t ts IH]; intros a Ha; cbn [read_tables].
  - split; [done|]. intros a' [= <-]. done.
  - rewrite bind_cons, app_length in Ha.
    assert (∀ ls, read_lines E t = Ok ls → acc_below (length ls + (length (ts ≫= λ t, pa_lines (tb_para t)) + n)) a) as Hls.
    { intros ls Hl. apply read_table_length in Hl. rewrite drop_length in Hl. eapply acc_below_le; [|exact Ha]. lia. }
    split.
    + apply rbind_panic; [apply read_table_no_panic|]. intros ls Hl. destruct (lines_below E ho _ None a ls (Hls ls Hl)) as [H1 H2].
      apply rbind_panic; [done|]. intros x Hx. by apply IH, H2.
    + intros a' (ls & Hl & H)%rbind_ok. destruct (lines_below E ho _ None a ls (Hls ls Hl)) as [H1 H2].
      apply rbind_ok in H as (x & Hx & H). eapply IH; [by apply H2|exact H].
Qed.
Lemma tables_lines doc : length ((doc ≫= find_in_page) ≫= λ t, pa_lines (tb_para t)) ≤ length (doc_lines doc).
Proof.
  rewrite model_tables. unfold doc_lines. induction (doc_paragraphs doc) as [|p ps IH]; [done|].
  rewrite (bind_cons pa_lines p ps), app_length.
  change (omap tab_of (p :: ps)) with (match tab_of p with Some t => t :: omap tab_of ps | None => omap tab_of ps end).
  unfold tab_of at 1. destruct (find_in_paragraph p); [|lia]. rewrite bind_cons, app_length. cbn [tb_para]. lia.
Qed.
Lemma pdf_no_panic E ho o doc : (Z.of_nat (length (doc_lines doc)) < 2147483647)%Z → pdf_import E ho o doc ≠ Panic.
Proof.
  intros Hl. unfold pdf_import. destruct (find_account_name doc) as [name|]; [|done].
  apply rbind_panic; [unfold make_namespace; by repeat case_match|]. intros ns _.
  assert (acc_below (length ((doc ≫= find_in_page) ≫= λ t, pa_lines (tb_para t)) + 0) (pdf_acc_new ns)) as Ha.
  { pose proof (tables_lines doc). split; [|done]. cbn. unfold I32_MAX. lia. }
  destruct (read_tables_below E ho 0 _ _ Ha) as [H1 H2]. apply rbind_panic; [done|]. intros a Hx%H2. apply rbind_panic; [|done].
  unfold acc_build. apply rbind_panic; [by eapply flush_no_panic|done].
Qed.

(** ** Namespaces *)
Lemma hyphen_not_part : (45%N) ∉ part_chars.
Proof. by_compute. Qed.
Lemma account_not_part doc name : account_is doc name → ¬ fp_part name.
Proof.
  intros (? & ? & ? & _ & (w0 & w1 & w2 & w3 & rest & a & b & c & _ & _ & _ & _ & _ & _ & Hs & _ & ->) & _) H.
  apply hyphen_not_part, H. rewrite Hs. apply elem_of_app. left. apply elem_of_app. right. apply elem_of_app. left. by_compute.
Qed.
Lemma account_name_fails E ho doc ls l : statement_lines E doc ls → l ∈ ls → starts l → ∀ out, pdf_import E ho NsAccountName doc ≠ Ok out.
Proof.
  intros Hls Hl Hst [ns ts] (name & ls' & skip & gs & Hn & Hns & Hls' & Hg & Hp & _)%c66_only.
  assert (ls' = ls) as -> by (by eapply statement_fun'). cbn in Hns. injection Hns as <-.
  destruct (elem_group l ls skip gs Hg Hl Hst) as (g & Hgg & _). eapply account_not_part; [exact Hn|]. apply Hp. intros ->. by apply elem_of_nil in Hgg.
Qed.

(** ** Dates *)
Lemma pdf_dates E ho o doc ns ts t : pdf_import E ho o doc = Ok (ns, ts) → t ∈ ts → line_date_ok (t_date t).
Proof.
  intros (name & ls & skip & gs & _ & _ & Hls & Hg & _ & _ & HF)%c66_only (k & Hk)%elem_of_list_lookup.
  destruct (Forall2_lookup_r _ _ _ _ _ HF Hk) as (g & Hgk & d & a & es & bs & ? & ? & ? & ? & [R _ _ _] & -> & _).
  eapply statement_date; [exact Hls| |exact R]. eapply group_line; [exact Hg|]. by eapply elem_of_list_lookup_2.
Qed.

(** ** Columns *)
Lemma one_column h c w : is_header h c → (∀ b, b ∈ [co_payments c; co_receipts c; co_balance c] → clear_of (bo_min b) w) →
  (bo_max (co_date c) ≤ bo_min (co_details c) ≤ bo_min (co_payments c))%Z → (bo_min (co_payments c) ≤ bo_min (co_receipts c) ≤ bo_min (co_balance c))%Z →
  clear_of (bo_min (co_details c)) w →
  ∀ i j b b', let cols := [co_date c; co_details c; co_payments c; co_receipts c; co_balance c] in
  cols !! i = Some b → cols !! j = Some b' → in_column b w → in_column b' w → i = j.
Proof.
  intros (w0 & w1 & w2 & w3 & w4 & rest & _ & _ & E0 & E1 & E2 & E3 & E4) Hc H1 H2 H5 i j b b' cols Hi Hj Hb Hb'.
  pose proof (Hc (co_payments c) ltac:(rewrite !elem_of_cons; auto)) as C1. pose proof (Hc (co_receipts c) ltac:(rewrite !elem_of_cons; auto)) as C2.
  pose proof (Hc (co_balance c) ltac:(rewrite !elem_of_cons; auto)) as C3.
  unfold clear_of, in_column in *. unfold cols in *. rewrite E0, E1, E2, E3, E4 in *. cbn [bo_min bo_max] in *.
  destruct i as [|[|[|[|[|i]]]]]; [..|by destruct i]; destruct j as [|[|[|[|[|j]]]]]; try done; cbn in Hi, Hj; simplify_eq; cbn [bo_min bo_max] in *; lia.
Qed.

(** ** Records *)
Lemma record_nodes rs ns : Forall2 (λ o n, ∃ r, o = Some r ∧ stands_for r n) rs ns → ns = omap (λ o, match o with Some r => node_of r | None => None end) rs.
Proof.
  induction 1 as [|o n rs ns (r & -> & Hr) HF IH]; [done|]. apply stands_for_spec in Hr. cbn. rewrite Hr. by f_equal.
Qed.
Lemma omap_perm {A B} (f : A → option B) l k : l ≡ₚ k → omap f l ≡ₚ omap f k.
Proof.
  induction 1 as [|x l k H IH|x y l|l k m H1 IH1 H2 IH2]; [done|..].
  - cbn. destruct (f x); [by f_equiv|done].
  - cbn. destruct (f x), (f y); try done. apply Permutation_swap.
  - by rewrite IH1.
Qed.
Lemma records_order rs rs' doc doc' : from_tsv rs = Ok doc → from_tsv rs' = Ok doc' → rs ≡ₚ rs' → doc = doc'.
Proof.
  intros (ns & F%record_nodes & _ & W & P)%c64 (ns' & F'%record_nodes & _ & W' & P')%c64 Hp. apply doc_unique; [done|done|].
  rewrite P, P', F, F'. by apply omap_perm.
Qed.
Lemma generated_works E ho doc name ls skip gs : account_is doc name → statement_lines E doc ls →
  grouped ls skip gs → (∀ g, g ∈ gs → ∃ d a es bs, group_reads E g d a es bs) →
  (∀ m, m ∈ sequence None 0 gs → (Z.of_nat m < 2147483647)%Z) → ∃ out, pdf_import E ho NsGenerated doc = Ok out.
Proof.
  intros Hn Hls Hg Hr Hs. destruct (generated_ok name) as (ns & Hns & Hp & _).
  destruct (c66_accepts E ho NsGenerated doc name ns ls skip gs Hn Hns Hls Hg (λ _, Hp) Hr Hs) as (ts & Hts). eauto.
Qed.
Lemma one_column' h c w i j b b' : is_header h c →
  (bo_max (co_date c) ≤ bo_min (co_details c) ≤ bo_min (co_payments c))%Z →
  (bo_min (co_payments c) ≤ bo_min (co_receipts c) ≤ bo_min (co_balance c))%Z →
  (∀ b, b ∈ [co_details c; co_payments c; co_receipts c; co_balance c] → clear_of (bo_min b) w) →
  let cols := [co_date c; co_details c; co_payments c; co_receipts c; co_balance c] in
  cols !! i = Some b → cols !! j = Some b' → in_column b w → in_column b' w → i = j.
Proof.
  intros Hh H1 H2 Hc. apply (one_column h c w Hh); [|done|done|].
  - intros x Hx. apply Hc. by right.
  - apply Hc. left.
Qed.

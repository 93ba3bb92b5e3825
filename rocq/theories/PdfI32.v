(** Coordinates as [i32] (C109). *)
From Verif Require Import MergeClaims.
From Verif Require Import Base Types SpecBase BaseProofs StrProofs CommentModel MergeModel Sha1 FingerprintModel NwCsvModel PaypalModel
  CommentClaims FingerprintClaims FingerprintProofs FingerprintLaws ImportClaims ImportProofs OcrModel OcrClaims OcrProofs PdfModel PdfClaims PdfTable PdfFold PdfLaws
  PdfLaws2 PdfI32Model PdfI32Claims.
From Coq Require Import Lia.
Local Open Scope nat_scope.

(** The first result is the second if [F], and in a build with checks unless it is a panic. *)
Definition rel {A} (k : bool) (F : Prop) (r r' : result A) : Prop := (F → r = r') ∧ (k = true → r = Panic ∨ r = r').
Lemma rel_refl {A} k F (r : result A) : rel k F r r.
Proof. split; auto. Qed.
Lemma rel_bind {A B} k F (r r' : result A) (f g : A → result B) :
  rel k F r r' → (∀ x, r' = Ok x → rel k F (f x) (g x)) → rel k F (rbind r f) (rbind r' g).
Proof.
  intros [H1 H2] H. split.
  - intros HF. rewrite (H1 HF). destruct r' as [x| |]; cbn; [|done|done]. by apply H.
  - intros Hk. destruct (H2 Hk) as [->| ->]; [by left|]. destruct r' as [x| |]; cbn; [|by right|by left]. by apply H.
Qed.
Lemma fits_i32_spec z : fits_i32 z = true ↔ i32_holds z.
Proof. unfold fits_i32, i32_holds. rewrite andb_true_iff, !Z.leb_le. lia. Qed.
Lemma i32_of_rel k (F : Prop) z : (F → i32_holds z) → rel k F (i32_of k z) (Ok z).
Proof.
  intros H. unfold rel, i32_of. split.
  - intros HF%H%fits_i32_spec. by rewrite HF.
  - intros ->. destruct (fits_i32 z); auto.
Qed.
Lemma i32_of_false z : i32_of false z ≠ Panic.
Proof. unfold i32_of. by destruct (fits_i32 z). Qed.

Lemma horiz_rel k (F : Prop) w : (F → i32_holds (wd_left w + wd_width w)) → rel k F (horiz_bounds_i32 k w) (Ok (horiz_bounds w)).
Proof.
  intros H. unfold horiz_bounds_i32. change (Ok (horiz_bounds w)) with (rbind (Ok (wd_left w + wd_width w)%Z) (λ m, Ok (Bounds (wd_left w) m))).
  apply rel_bind; [by apply i32_of_rel|]. intros m _. apply rel_refl.
Qed.
Lemma words_rel k (F : Prop) b ws : (F → ∀ w, w ∈ ws → i32_holds (wd_left w + wd_width w)) →
  rel k F (words_in_i32 k b ws) (Ok (wd_text <$> filter (λ w, overlaps b (horiz_bounds w) = true) ws)).
Proof.
  induction ws as [|w ws IH]; intros H; cbn [words_in_i32]; [apply rel_refl|].
  replace (Ok (wd_text <$> filter _ (w :: ws)))
    with (let! wb := Ok (horiz_bounds w) in let! rest := Ok (wd_text <$> filter (λ w, overlaps b (horiz_bounds w) = true) ws) in
          Ok (if overlaps b wb then wd_text w :: rest else rest)).
  2:{ cbn [rbind]. f_equal. rewrite filter_cons. destruct (overlaps b (horiz_bounds w)) eqn:E; by rewrite ?decide_True, ?decide_False by congruence. }
  apply rel_bind; [apply horiz_rel; intros HF; apply (H HF); apply elem_of_list_here|]. intros wb _.
  apply rel_bind; [apply IH; intros HF w' Hw; apply (H HF); by apply elem_of_list_further|]. intros rest _. apply rel_refl.
Qed.
Lemma collect_rel k (F : Prop) b l : (F → ∀ w, w ∈ ln_words l → i32_holds (wd_left w + wd_width w)) →
  rel k F (collect_words_in_i32 k b l) (Ok (collect_words_in b l)).
Proof. apply words_rel. Qed.
Lemma join_rel k (F : Prop) b l : (F → ∀ w, w ∈ ln_words l → i32_holds (wd_left w + wd_width w)) →
  rel k F (join_words_in_i32 k b l) (Ok (join_words_in b l)).
Proof.
  intros H. unfold join_words_in_i32, join_words_in.
  match goal with |- rel _ _ _ ?m => change m with
    (rbind (Ok (collect_words_in b l)) (λ ws, Ok (match join (s2l " ") ws with [] => None | s => Some s end))) end.
  apply rel_bind; [by apply collect_rel|]. intros ws _. apply rel_refl.
Qed.
Lemma find_line_rel k (F : Prop) i l : (F → ∀ w, w ∈ ln_words l → i32_holds (wd_left w + wd_width w)) →
  rel k F (find_in_line_i32 k i l) (Ok (find_in_line i l)).
Proof.
  unfold find_in_line_i32, find_in_line. destruct (ln_words l) as [|w0 [|w1 [|w2 [|w3 [|w4 ws]]]]]; intros H; try apply rel_refl.
  destruct (_ && _); [|apply rel_refl].
  match goal with |- rel _ _ _ ?m => change m with (let! d := Ok (horiz_bounds w0) in let! b := Ok (horiz_bounds w4) in
    Ok (Some (Columns i d (Bounds (wd_left w1) (wd_left w2)) (Bounds (wd_left w2) (wd_left w3)) (Bounds (wd_left w3) (wd_left w4)) b))) end.
  apply rel_bind; [apply horiz_rel; intros HF; apply (H HF); repeat (apply elem_of_list_here || apply elem_of_list_further)|]. intros d _.
  apply rel_bind; [apply horiz_rel; intros HF; apply (H HF); rewrite !elem_of_cons; tauto|]. intros b _. apply rel_refl.
Qed.
Lemma find_lines_rel k (F : Prop) i ls : (F → ∀ l, l ∈ ls → ∀ w, w ∈ ln_words l → i32_holds (wd_left w + wd_width w)) →
  rel k F (find_in_lines_i32 k i ls) (Ok (find_in_lines i ls)).
Proof.
  revert i. induction ls as [|l ls IH]; intros i H; cbn [find_in_lines_i32 find_in_lines]; [apply rel_refl|].
  replace (Ok (match find_in_line i l with Some c => Some c | None => find_in_lines (S i) ls end))
    with (let! c := Ok (find_in_line i l) in match c with Some c => Ok (Some c) | None => Ok (find_in_lines (S i) ls) end)
    by (cbn [rbind]; by destruct (find_in_line i l)).
  apply rel_bind; [apply find_line_rel; intros HF; apply (H HF); apply elem_of_list_here|].
  intros [c|] _; [apply rel_refl|]. apply IH. intros HF l' Hl. apply (H HF). by apply elem_of_list_further.
Qed.
Lemma update_rel k (F : Prop) E c y d l : (F → ∀ w, w ∈ ln_words l → i32_holds (wd_left w + wd_width w)) →
  rel k F (update_date_i32 k E c y d l) (update_date_from_line E c y d l).
Proof.
  intros H. unfold update_date_i32, update_date_from_line.
  match goal with |- rel _ _ _ ?m => change m
    with (rbind (Ok (collect_words_in (co_date c) l)) (λ ws, match ws with
      | [] => Ok (DfNothing, y, d)
      | [y] => match pe_year E y with
        | None => Err EBadDate
        | Some y => if (EARLIEST_YEAR <=? y)%Z && (y <=? LATEST_YEAR)%Z then Ok (DfYear, Some y, d) else Err EBadDate end
      | [day; month] => match pe_day E day, pe_month E month, y with
        | Some day, Some month, Some y0 => let! d := from_ymd y0 month day in Ok (DfDayMonth, y, Some d)
        | _, _, _ => Err EBadDate end
      | _ => Err EBadTable end)) end.
  apply rel_bind; [by apply collect_rel|]. intros ws _. apply rel_refl.
Qed.
Definition line_of_table (c : columns) (d : option date) (l : line) : option trn_line :=
  match join_words_in (co_details c) l with
  | None => None
  | Some detail => Some (TrnLine d detail (join_words_in (co_payments c) l) (join_words_in (co_receipts c) l)
                    (join_words_in (co_balance c) l) (ln_top l) (ln_height l))
  end.
Lemma table_line_rel k (F : Prop) c d l : (F → ∀ w, w ∈ ln_words l → i32_holds (wd_left w + wd_width w)) →
  rel k F (table_line_i32 k c d l) (Ok (line_of_table c d l)).
Proof.
  intros H. unfold table_line_i32, line_of_table.
  replace (Ok (match join_words_in (co_details c) l with None => None | Some detail => _ end))
    with (let! detail := Ok (join_words_in (co_details c) l) in
      match detail with None => Ok None | Some detail =>
      let! payment := Ok (join_words_in (co_payments c) l) in let! receipt := Ok (join_words_in (co_receipts c) l) in
      let! balance := Ok (join_words_in (co_balance c) l) in Ok (Some (TrnLine d detail payment receipt balance (ln_top l) (ln_height l))) end)
    by (cbn [rbind]; by destruct (join_words_in (co_details c) l)).
  apply rel_bind; [by apply join_rel|]. intros [x|] _; [|apply rel_refl].
  apply rel_bind; [by apply join_rel|]. intros p _. apply rel_bind; [by apply join_rel|]. intros r _.
  apply rel_bind; [by apply join_rel|]. intros b _. apply rel_refl.
Qed.
Lemma table_rel k (F : Prop) E c y d ls : (F → ∀ l, l ∈ ls → ∀ w, w ∈ ln_words l → i32_holds (wd_left w + wd_width w)) →
  rel k F (read_table_lines_i32 k E c y d ls) (read_table_lines E c y d ls).
Proof.
  revert y d. induction ls as [|l ls IH]; intros y d H; cbn [read_table_lines_i32 read_table_lines]; [apply rel_refl|].
  assert (F → ∀ w, w ∈ ln_words l → i32_holds (wd_left w + wd_width w)) as Hl by (intros HF; apply (H HF); apply elem_of_list_here).
  apply rel_bind; [by apply update_rel|]. intros [[f y'] d'] _.
  match goal with |- rel _ _ _ ?m => assert (m = let! t := match f with DfYear => Ok None | _ => Ok (line_of_table c d' l) end in
    let! rest := read_table_lines E c y' d' ls in Ok (match t with Some t => t :: rest | None => rest end)) as -> end.
  { unfold line_of_table. destruct f; cbn [rbind]; destruct (read_table_lines E c y' d' ls); try done; cbn [rbind]; by destruct (join_words_in _ l). }
  apply rel_bind; [destruct f; [by apply table_line_rel|apply rel_refl|by apply table_line_rel]|]. intros t _.
  apply rel_bind; [apply IH; intros HF l' Hl'; apply (H HF); by apply elem_of_list_further|]. intros rest _. apply rel_refl.
Qed.
Definition line_fits (t : trn_line) : Prop := i32_holds (2 * tl_height t) ∧ i32_holds (tl_top t + 2 * tl_height t).
Lemma gap_rel k (F : Prop) p l : (F → line_fits p) → rel k F (gap_i32 k p l) (Ok (tl_top p + tl_height p * 2 <? tl_top l)%Z).
Proof.
  intros H. unfold gap_i32. match goal with |- rel _ _ _ ?m => change m with (let! h := Ok (tl_height p * 2)%Z in let! e := Ok (tl_top p + h)%Z in Ok (e <? tl_top l)%Z) end.
  unfold line_fits in H. rewrite (Z.mul_comm 2) in H.
  apply rel_bind; [apply i32_of_rel; intros HF; apply (H HF)|]. intros h [= <-].
  apply rel_bind; [apply i32_of_rel; intros HF; apply (H HF)|]. intros e _. apply rel_refl.
Qed.
Lemma trns_rel k (F : Prop) E ho prev a ls : (F → ∀ p, prev = Some p → line_fits p) → (F → ∀ l, l ∈ ls → line_fits l) →
  rel k F (lines_to_transactions_i32 k E ho prev a ls) (lines_to_transactions E ho prev a ls).
Proof.
  revert prev a. induction ls as [|l ls IH]; intros prev a Hp H; cbn [lines_to_transactions_i32 lines_to_transactions]; [apply rel_refl|].
  match goal with |- rel _ _ _ (if ?b then ?x else ?y) => change (if b then x else y) with (let! gap := Ok b in if gap : bool then x else y) end.
  apply rel_bind.
  - destruct prev as [p|]; [|apply rel_refl]. apply gap_rel. intros HF. by apply (Hp HF).
  - intros [] _; [apply rel_refl|]. apply rel_bind; [apply rel_refl|]. intros a' _. apply IH.
    + intros HF p [= <-]. apply (H HF). apply elem_of_list_here.
    + intros HF l' Hl'. apply (H HF). by apply elem_of_list_further.
Qed.
Lemma table_tops E c y d ls rs t : read_table_lines E c y d ls = Ok rs → t ∈ rs → ∃ l, l ∈ ls ∧ tl_top t = ln_top l ∧ tl_height t = ln_height l.
Proof.
  revert y d rs. induction ls as [|l ls IH]; intros y d rs; cbn [read_table_lines].
  - intros [= <-] []%elem_of_nil.
  - intros ([[f y'] d'] & _ & H)%rbind_ok Ht. apply rbind_ok in H as (rest & Hr & H).
    assert (t ∈ rest ∨ (tl_top t = ln_top l ∧ tl_height t = ln_height l)) as [Hin|[H1 H2]].
    { destruct f; [destruct (join_words_in _ _)| |destruct (join_words_in _ _)]; injection H as <-; auto;
        apply elem_of_cons in Ht as [->|Ht]; auto. }
    + destruct (IH _ _ _ Hr Hin) as (l' & Hl' & Hx). exists l'. split; [by apply elem_of_list_further|done].
    + exists l. split; [apply elem_of_list_here|done].
Qed.
Definition lines_fit (ls : list line) : Prop := ∀ l, l ∈ ls → i32_holds (2 * ln_height l) ∧ i32_holds (ln_top l + 2 * ln_height l) ∧
    ∀ w, w ∈ ln_words l → i32_holds (wd_left w + wd_width w).
Lemma pars_rel k (F : Prop) E ho a ps : (F → lines_fit (ps ≫= pa_lines)) →
  rel k F (read_paragraphs_i32 k E ho a ps) (read_tables E ho a (omap tab_of ps)).
Proof.
  revert a. induction ps as [|p ps IH]; intros a H; cbn [read_paragraphs_i32]; [apply rel_refl|].
  assert (F → lines_fit (pa_lines p)) as Hp by (intros HF l Hl; apply (H HF); rewrite bind_cons; apply elem_of_app; by left).
  assert (F → lines_fit (ps ≫= pa_lines)) as Hps by (intros HF l Hl; apply (H HF); rewrite bind_cons; apply elem_of_app; by right).
  change (omap tab_of (p :: ps)) with (match tab_of p with Some t => t :: omap tab_of ps | None => omap tab_of ps end).
  unfold tab_of at 1, find_in_paragraph.
  match goal with |- rel _ _ _ ?m => assert (m = let! c := Ok (find_in_lines 0 (pa_lines p)) in match c with
    | None => read_tables E ho a (omap tab_of ps)
    | Some c => let! ls := read_table_lines E c None None (drop (S (co_header c)) (pa_lines p)) in
                let! a := lines_to_transactions E ho None a ls in read_tables E ho a (omap tab_of ps) end) as -> end.
  { cbn [rbind]. by destruct (find_in_lines 0 (pa_lines p)). }
  apply rel_bind; [apply find_lines_rel; intros HF l Hl; by apply (Hp HF)|]. intros [c|] _; [|by apply IH].
  assert (∀ l, l ∈ drop (S (co_header c)) (pa_lines p) → l ∈ pa_lines p) as Hd.
  { intros l Hl. rewrite <- (take_drop (S (co_header c)) (pa_lines p)). apply elem_of_app. by right. }
  apply rel_bind; [apply table_rel; intros HF l Hl; apply (Hp HF); by apply Hd|]. intros ls Hls.
  apply rel_bind; [|intros a' _; by apply IH]. apply trns_rel; [done|].
  intros HF t Ht. destruct (table_tops _ _ _ _ _ _ _ Hls Ht) as (l & Hl & E1 & E2). unfold line_fits. rewrite E1, E2.
  destruct (Hp HF l (Hd l Hl)) as (? & ? & _). done.
Qed.
Lemma iter_doc_paragraphs doc : iter_paragraphs doc = doc_paragraphs doc.
Proof. unfold iter_paragraphs, doc_paragraphs. induction doc as [|p doc IH]; [done|]. by rewrite !bind_cons, bind_app, IH. Qed.
Lemma import_rel k E ho o doc : rel k (coordinates_fit doc) (pdf_import_i32 k E ho o doc) (pdf_import E ho o doc).
Proof.
  unfold pdf_import_i32, pdf_import. destruct (find_account_name doc) as [name|]; [|apply rel_refl].
  apply rel_bind; [apply rel_refl|]. intros ns _. apply rel_bind; [|intros; apply rel_refl].
  rewrite model_tables, iter_doc_paragraphs. apply pars_rel. intros H. exact H.
Qed.

Lemma i32_same k E ho o doc : coordinates_fit doc → pdf_import_i32 k E ho o doc = pdf_import E ho o doc.
Proof. apply import_rel. Qed.
Lemma i32_checked E ho o doc : pdf_import_i32 true E ho o doc = Panic ∨ pdf_import_i32 true E ho o doc = pdf_import E ho o doc.
Proof. by apply import_rel. Qed.
Lemma i32_no_panic k E ho o doc : (Z.of_nat (length (doc_lines doc)) < 2147483647)%Z → coordinates_fit doc → pdf_import_i32 k E ho o doc ≠ Panic.
Proof. intros Hl H. rewrite i32_same by done. by apply pdf_no_panic. Qed.

(** ** Records *)
Lemma nodes_line doc l : l ∈ doc_lines doc → ∃ p b q, NLine p b q (ln_num l) (ln_top l) (ln_height l) ∈ nodes doc ∧
  ∀ w, w ∈ ln_words l → NWord p b q (ln_num l) (wd_num w) (wd_left w) (wd_width w) (wd_text w) ∈ nodes doc.
Proof.
  unfold doc_lines, doc_paragraphs. intros (q & Hl & Hq)%elem_of_list_bind. apply elem_of_list_bind in Hq as (p & Hq & Hp).
  apply elem_of_list_bind in Hq as (b & Hq & Hb). exists (pg_num p), (bk_num b), (pa_num q).
  assert (∀ n, n ∈ line_nodes (pg_num p) (bk_num b) (pa_num q) l → n ∈ nodes doc) as Hn.
  { intros n Hn. unfold nodes. apply elem_of_list_bind. exists p. split; [|done]. unfold page_nodes. apply elem_of_list_further.
    apply elem_of_list_bind. exists b. split; [|done]. unfold block_nodes. apply elem_of_list_further.
    apply elem_of_list_bind. exists q. split; [|done]. unfold par_nodes. apply elem_of_list_further.
    apply elem_of_list_bind. by exists l. }
  split; [apply Hn, elem_of_list_here|]. intros w Hw. apply Hn, elem_of_list_further. apply elem_of_list_bind. exists w. split; [|done].
  apply elem_of_list_here.
Qed.
Lemma records_fit rs doc : from_tsv rs = Ok doc → (∀ r, Some r ∈ rs → within 715827882 r) → coordinates_fit doc.
Proof.
  intros (ns & Hns & _ & _ & Hp)%c64 H.
  assert (∀ n, n ∈ nodes doc → ∃ r, within 715827882 r ∧ stands_for r n) as Hn.
  { intros n Hn. rewrite Hp in Hn. apply elem_of_list_lookup in Hn as [i Hi]. destruct (Forall2_lookup_r _ _ _ _ _ Hns Hi) as (x & Hx & r & -> & Hr).
    exists r. split; [|done]. apply H. by eapply elem_of_list_lookup_2. }
  intros l (p & b & q & Hl & Hw)%nodes_line. unfold i32_holds.
  apply Hn in Hl as (r & (? & ? & ? & ?) & (_ & _ & _ & _ & _ & E1 & E2)).
  split; [lia|]. split; [lia|]. intros w Hwd. apply Hw, Hn in Hwd as (r' & (? & ? & ? & ?) & (_ & _ & _ & _ & _ & _ & E3 & E4 & _)). lia.
Qed.
Lemma i32_records k E ho o rs : (∀ r, Some r ∈ rs → within 715827882 r) → pdf_import_tsv_i32 k E ho o rs = pdf_import_tsv E ho o rs.
Proof.
  intros H. unfold pdf_import_tsv_i32, pdf_import_tsv. destruct (from_tsv rs) as [doc| |] eqn:Ed; [|done|done]. cbn [rbind].
  apply i32_same. by eapply records_fit.
Qed.

(** ** Builds without checks *)
Lemma horiz_false w : horiz_bounds_i32 false w ≠ Panic.
Proof. unfold horiz_bounds_i32. apply rbind_panic; [apply i32_of_false|done]. Qed.
Lemma words_false b ws : words_in_i32 false b ws ≠ Panic.
Proof.
  induction ws as [|w ws IH]; cbn [words_in_i32]; [done|]. apply rbind_panic; [apply horiz_false|]. intros wb _.
  by apply rbind_panic; [apply IH|].
Qed.
Lemma join_false b l : join_words_in_i32 false b l ≠ Panic.
Proof. unfold join_words_in_i32. apply rbind_panic; [apply words_false|done]. Qed.
Lemma find_false i ls : find_in_lines_i32 false i ls ≠ Panic.
Proof.
  revert i. induction ls as [|l ls IH]; intros i; cbn [find_in_lines_i32]; [done|]. apply rbind_panic.
  - unfold find_in_line_i32. destruct (ln_words l) as [|w0 [|w1 [|w2 [|w3 [|w4 ws]]]]]; try done. destruct (_ && _); [|done].
    apply rbind_panic; [apply horiz_false|]. intros d _. by apply rbind_panic; [apply horiz_false|].
  - intros [c|] _; [done|apply IH].
Qed.
Lemma table_false E c y d ls : read_table_lines_i32 false E c y d ls ≠ Panic ∧
  ∀ rs, read_table_lines_i32 false E c y d ls = Ok rs → length rs ≤ length ls.
Proof.
  revert y d. induction ls as [|l ls IH]; intros y d; cbn [read_table_lines_i32]; [split; [done|]; intros rs [= <-]; done|].
  split.
  - apply rbind_panic.
    + unfold update_date_i32. apply rbind_panic; [apply words_false|]. intros ws _. unfold from_ymd. by repeat case_match.
    + intros [[f y'] d'] _. apply rbind_panic; [|intros t _; by apply rbind_panic; [apply IH|]].
      assert (table_line_i32 false c d' l ≠ Panic).
      { unfold table_line_i32. apply rbind_panic; [apply join_false|]. intros [x|] _; [|done].
        do 3 (apply rbind_panic; [apply join_false|]; intros ? _). done. }
      by destruct f.
  - intros rs ([[f y'] d'] & _ & H)%rbind_ok. apply rbind_ok in H as (t & _ & H). apply rbind_ok in H as (rest & Hr%IH & H).
    destruct t; injection H as <-; cbn [length]; lia.
Qed.
Lemma trns_false E ho n prev a ls : acc_below (length ls + n) a → lines_to_transactions_i32 false E ho prev a ls ≠ Panic ∧
  ∀ a', lines_to_transactions_i32 false E ho prev a ls = Ok a' → acc_below n a'.
Proof.
  revert prev a. induction ls as [|l ls IH]; intros prev a Ha; cbn [lines_to_transactions_i32].
  - split; [done|]. intros a' [= <-]. done.
  - destruct (feed_below E ho (length ls + n) a l Ha) as [H1 H2].
    split.
    + apply rbind_panic.
      * destruct prev as [p|]; [|done]. unfold gap_i32. do 2 (apply rbind_panic; [apply i32_of_false|]; intros ? _). done.
      * intros [] _; [done|]. apply rbind_panic; [done|]. intros x Hx. by apply IH, H2.
    + intros a' (g & _ & H)%rbind_ok. destruct g.
      * injection H as <-. eapply acc_below_le; [|exact Ha]. lia.
      * apply rbind_ok in H as (x & Hx & H). eapply IH; [by apply H2|exact H].
Qed.
Lemma pars_false E ho n a ps : acc_below (length (ps ≫= pa_lines) + n) a →
  read_paragraphs_i32 false E ho a ps ≠ Panic ∧ ∀ a', read_paragraphs_i32 false E ho a ps = Ok a' → acc_below n a'.
Proof.
  revert a. induction ps as [|p ps IH]; intros a Ha; cbn [read_paragraphs_i32].
  - split; [done|]. intros a' [= <-]. done.
  - rewrite bind_cons, app_length in Ha.
    assert (acc_below (length (ps ≫= pa_lines) + n) a) as Ha' by (eapply acc_below_le; [|exact Ha]; lia).
    assert (∀ c ls, read_table_lines_i32 false E c None None (drop (S (co_header c)) (pa_lines p)) = Ok ls →
      acc_below (length ls + (length (ps ≫= pa_lines) + n)) a) as Hls.
    { intros c ls Hl. apply table_false in Hl. rewrite drop_length in Hl. eapply acc_below_le; [|exact Ha]. lia. }
    split.
    + apply rbind_panic; [apply find_false|]. intros [c|] _; [|by apply IH].
      apply rbind_panic; [apply table_false|]. intros ls Hl. destruct (trns_false E ho _ None a ls (Hls c ls Hl)) as [H1 H2].
      apply rbind_panic; [done|]. intros x Hx. by apply IH, H2.
    + intros a' (oc & _ & H)%rbind_ok. destruct oc as [c|]; [|by eapply IH].
      apply rbind_ok in H as (ls & Hl & H). destruct (trns_false E ho _ None a ls (Hls c ls Hl)) as [H1 H2].
      apply rbind_ok in H as (x & Hx & H). eapply IH; [by apply H2|exact H].
Qed.
Lemma i32_unchecked E ho o doc : (Z.of_nat (length (doc_lines doc)) < 2147483647)%Z → pdf_import_i32 false E ho o doc ≠ Panic.
Proof.
  intros Hl. unfold pdf_import_i32. destruct (find_account_name doc) as [name|]; [|done].
  apply rbind_panic; [unfold make_namespace; by repeat case_match|]. intros ns _.
  assert (acc_below (length (iter_paragraphs doc ≫= pa_lines) + 0) (pdf_acc_new ns)) as Ha.
  { rewrite iter_doc_paragraphs. split; [|done]. cbn. unfold I32_MAX. fold (doc_lines doc). lia. }
  destruct (pars_false E ho 0 _ _ Ha) as [H1 H2]. apply rbind_panic; [done|]. intros a Hx%H2. apply rbind_panic; [|done].
  unfold acc_build. apply rbind_panic; [by eapply flush_no_panic|done].
Qed.

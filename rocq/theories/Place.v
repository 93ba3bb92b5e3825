(** Proofs for C142: the place and size of recognised text. *)
From Verif Require Import MergeClaims.
From Verif Require Import Base Types SpecBase CommentModel MergeModel FingerprintModel NwCsvModel OcrModel PdfModel HeaderClaims PlaceClaims.
From Coq Require Import Lia.
Local Open Scope nat_scope.

Lemma alike_bind {A B} (P : A → A → Prop) (Q : B → B → Prop) r r' k k' :
  result_alike P r r' → (∀ x x', P x x' → result_alike Q (k x) (k' x')) → result_alike Q (rbind r k) (rbind r' k').
Proof. destruct r, r'; cbn; try done; auto. Qed.

(** ** Documents *)
Definition numbered {A} (R : Z → A → A → Prop) (l l' : list A) : Prop :=
  length l' = length l ∧ ∀ i x x', l !! i = Some x → l' !! i = Some x' → R (Z.of_nat i + 1)%Z x x'.
Lemma numbered_nil {A} (R : Z → A → A → Prop) : numbered R [] [].
Proof. split; [done|]. intros i x x' Hx. by rewrite lookup_nil in Hx. Qed.
Lemma num_to_idx_spec n i : num_to_idx n = Ok i → n = (Z.of_nat i + 1)%Z.
Proof. unfold num_to_idx. destruct (Z.ltb_spec n 1); [done|]. intros [= <-]. lia. Qed.
Lemma get_numbered {A} (R : Z → A → A → Prop) l l' n f f' : numbered R l l' →
  (∀ x x', R n x x' → result_alike (R n) (f x) (f' x')) →
  result_alike (numbered R) (get_checked_mut l n f) (get_checked_mut l' n f').
Proof.
  intros [Hlen Hl] Hf. unfold get_checked_mut. destruct (num_to_idx n) as [i| |] eqn:En; [|done..]. cbn [rbind].
  apply num_to_idx_spec in En. destruct (l !! i) as [x|] eqn:Ex.
  - destruct (lookup_lt_is_Some_2 l' i) as [x' Ex']; [rewrite Hlen; by eapply lookup_lt_Some|]. rewrite Ex'.
    apply (alike_bind (R n)); [apply Hf; subst n; by apply Hl|]. intros y y' Hy. split; [by rewrite !insert_length|].
    intros k a a' Ha Ha'. destruct (decide (k = i)) as [->|Hne].
    + rewrite list_lookup_insert in Ha by (by eapply lookup_lt_Some). rewrite list_lookup_insert in Ha' by (by eapply lookup_lt_Some).
      injection Ha as <-. injection Ha' as <-. by subst n.
    + rewrite list_lookup_insert_ne in Ha, Ha' by done. by eapply Hl.
  - rewrite (lookup_ge_None_2 l' i); [done|]. rewrite Hlen. by apply lookup_ge_None.
Qed.
Lemma push_numbered {A} (R : Z → A → A → Prop) l l' n x x' : numbered R l l' → R n x x' →
  result_alike (numbered R) (push_checked l n x) (push_checked l' n x').
Proof.
  intros [Hlen Hl] Hx. unfold push_checked. destruct (num_to_idx n) as [i| |] eqn:En; [|done..]. cbn [rbind].
  apply num_to_idx_spec in En. rewrite Hlen. case_bool_decide as Hi; [|done]. split; [rewrite !app_length; by rewrite Hlen|].
  intros k a a' Ha Ha'. destruct (decide (k < length l)) as [Hk|Hk].
  - rewrite lookup_app_l in Ha by done. rewrite lookup_app_l in Ha' by lia. by eapply Hl.
  - rewrite lookup_app_r in Ha by lia. rewrite lookup_app_r in Ha' by lia. rewrite Hlen in Ha'.
    destruct (k - length l) as [|z] eqn:Ez; [|done]. cbn in Ha, Ha'. injection Ha as <-. injection Ha' as <-.
    replace (Z.of_nat k + 1)%Z with n by lia. done.
Qed.

Definition word_rel (f : frame) (w w' : word) : Prop :=
  wd_text w' = wd_text w ∧ (fr_den f * wd_left w' = fr_num f * wd_left w + fr_right f)%Z ∧ (fr_den f * wd_width w' = fr_num f * wd_width w)%Z.
Definition line_rel (f : frame) (l l' : line) : Prop :=
  (fr_den f * ln_top l' = fr_num f * ln_top l + fr_down f)%Z ∧ (fr_den f * ln_height l' = fr_num f * ln_height l)%Z ∧
  numbered (λ _, word_rel f) (ln_words l) (ln_words l').
Definition para_rel (f : frame) (p p' : paragraph) : Prop := numbered (λ _, line_rel f) (pa_lines p) (pa_lines p').
Definition block_rel (F : Z → frame) (b b' : block) : Prop := numbered (λ n, para_rel (F n)) (bk_paragraphs b) (bk_paragraphs b').
Definition page_rel (F : Z → Z → frame) (p p' : page) : Prop := numbered (λ n, block_rel (F n)) (pg_blocks p) (pg_blocks p').
Definition doc_rel (F : Z → Z → Z → frame) : document → document → Prop := numbered (λ n, page_rel (F n)).

Lemma feed_rel F doc doc' r r' : doc_rel F doc doc' → moved F r r' → result_alike (doc_rel F) (feed_record doc r) (feed_record doc' r').
Proof.
  intros Hd (E1 & E2 & E3 & E4 & E5 & E6 & E7 & G1 & G2 & G3 & G4).
  unfold feed_record, line_mut, paragraph_mut, block_mut, page_mut. rewrite E1, E2, E3, E4, E5, E6.
  set (f := F (or_page r) (or_block r) (or_par r)) in *.
  destruct (or_level r =? 1)%Z; [|destruct (or_level r =? 2)%Z; [|destruct (or_level r =? 3)%Z; [|destruct (or_level r =? 4)%Z; [|destruct (or_level r =? 5)%Z; [|done]]]]].
  - apply push_numbered; [done|]. apply numbered_nil.
  - apply get_numbered; [done|]. intros p p' Hp.
    eapply alike_bind; [apply (push_numbered _ _ _ _ _ (block_of r') Hp); apply numbered_nil|]. intros bs bs' H. exact H.
  - apply get_numbered; [done|]. intros p p' Hp.
    eapply alike_bind; [apply (get_numbered _ _ _ (or_block r) _ _ Hp)|intros bs bs' H; exact H]. intros b b' Hb.
    eapply alike_bind; [apply (push_numbered _ _ _ _ _ (paragraph_of r') Hb); apply numbered_nil|]. intros bs bs' H. exact H.
  - apply get_numbered; [done|]. intros p p' Hp.
    eapply alike_bind; [apply (get_numbered _ _ _ (or_block r) _ _ Hp)|intros bs bs' H; exact H]. intros b b' Hb.
    eapply alike_bind; [apply (get_numbered _ _ _ (or_par r) _ _ Hb)|intros bs bs' H; exact H]. intros q q' Hq.
    eapply alike_bind; [apply (push_numbered _ _ _ _ _ (line_of r') Hq); split_and!; [done|done|apply numbered_nil]|]. intros bs bs' H. exact H.
  - apply get_numbered; [done|]. intros p p' Hp.
    eapply alike_bind; [apply (get_numbered _ _ _ (or_block r) _ _ Hp)|intros bs bs' H; exact H]. intros b b' Hb.
    eapply alike_bind; [apply (get_numbered _ _ _ (or_par r) _ _ Hb)|intros bs bs' H; exact H]. intros q q' Hq.
    eapply alike_bind; [apply (get_numbered _ _ _ (or_line r) _ _ Hq)|intros bs bs' H; exact H]. intros l l' (L1 & L2 & Hl).
    eapply alike_bind; [apply (push_numbered _ _ _ _ _ (word_of r') Hl); split_and!; done|]. intros bs bs' H. split_and!; done.
Qed.
Lemma tsv_rel F rs rs' : Forall2 (option_Forall2 (moved F)) rs rs' → result_alike (doc_rel F) (from_tsv rs) (from_tsv rs').
Proof.
  unfold from_tsv. intros H. assert (doc_rel F [] []) as Hd by apply numbered_nil. revert Hd. generalize ([] : document) at 1 3. generalize ([] : document).
  intros d' d. revert d d'. induction H as [|o o' rs rs' Ho H IH]; intros d d' Hd; [done|]. inversion Ho as [r r' Hr|]; subst; [|done]. cbn [feed_records].
  eapply alike_bind; [by apply feed_rel|]. intros x x' Hx. by apply IH.
Qed.

(** ** Tables *)
Lemma numbered_Forall2 {A} (R : A → A → Prop) l l' : numbered (λ _, R) l l' → Forall2 R l l'.
Proof. intros [Hlen H]. apply Forall2_same_length_lookup_2; [done|]. intros i x y. apply H. Qed.
Definition bounds_rel (f : frame) (b b' : bounds) : Prop :=
  (fr_den f * bo_min b' = fr_num f * bo_min b + fr_right f)%Z ∧ (fr_den f * bo_max b' = fr_num f * bo_max b + fr_right f)%Z.
Lemma lt_scaled n d c x x' y y' : (0 < n)%Z → (0 < d)%Z → (d * x' = n * x + c)%Z → (d * y' = n * y + c)%Z → (x' <? y')%Z = (x <? y)%Z.
Proof. intros Hn Hd Hx Hy. destruct (Z.ltb_spec x y), (Z.ltb_spec x' y'); try done; exfalso; nia. Qed.
Lemma overlaps_rel f a a' b b' : frame_ok f → bounds_rel f a a' → bounds_rel f b b' → overlaps a' b' = overlaps a b.
Proof.
  intros [Hn Hd] [A1 A2] [B1 B2]. unfold overlaps.
  by rewrite (lt_scaled _ _ _ _ _ _ _ Hn Hd B1 A2), (lt_scaled _ _ _ _ _ _ _ Hn Hd A1 B2).
Qed.
Lemma horiz_rel f w w' : word_rel f w w' → bounds_rel f (horiz_bounds w) (horiz_bounds w').
Proof. intros (_ & H1 & H2). split; cbn; lia. Qed.
Lemma collect_rel f b b' l l' : frame_ok f → bounds_rel f b b' → line_rel f l l' → collect_words_in b' l' = collect_words_in b l.
Proof.
  intros Hf Hb (_ & _ & Hl%numbered_Forall2). unfold collect_words_in. induction Hl as [|w w' ws ws' Hw Hl IH]; [done|].
  rewrite !filter_cons, (overlaps_rel f b b' _ _ Hf Hb (horiz_rel f w w' Hw)).
  destruct (decide _); [|done]. rewrite !fmap_cons, IH. f_equal. apply Hw.
Qed.
Lemma join_rel f b b' l l' : frame_ok f → bounds_rel f b b' → line_rel f l l' → join_words_in b' l' = join_words_in b l.
Proof. intros Hf Hb Hl. unfold join_words_in. by rewrite (collect_rel f b b' l l'). Qed.
Definition columns_rel (f : frame) (c c' : columns) : Prop :=
  co_header c' = co_header c ∧ bounds_rel f (co_date c) (co_date c') ∧ bounds_rel f (co_details c) (co_details c') ∧
  bounds_rel f (co_payments c) (co_payments c') ∧ bounds_rel f (co_receipts c) (co_receipts c') ∧ bounds_rel f (co_balance c) (co_balance c').
Lemma find_line_rel f i l l' : line_rel f l l' → option_Forall2 (columns_rel f) (find_in_line i l) (find_in_line i l').
Proof.
  intros (_ & _ & Hl%numbered_Forall2). unfold find_in_line.
  destruct Hl as [|w0 w0' ? ? W0 Hl]; [constructor|]. destruct Hl as [|w1 w1' ? ? W1 Hl]; [constructor|].
  destruct Hl as [|w2 w2' ? ? W2 Hl]; [constructor|]. destruct Hl as [|w3 w3' ? ? W3 Hl]; [constructor|].
  destruct Hl as [|w4 w4' ? ? W4 Hl]; [constructor|].
  destruct W0 as (E0 & P0 & Q0), W1 as (E1 & P1 & Q1), W2 as (E2 & P2 & Q2), W3 as (E3 & P3 & Q3), W4 as (E4 & P4 & Q4).
  rewrite E0, E1, E2, E3, E4. destruct (_ && _); [|constructor]. constructor. unfold columns_rel, bounds_rel. cbn. split_and!; lia.
Qed.
Lemma find_lines_rel f i ls ls' : Forall2 (line_rel f) ls ls' → option_Forall2 (columns_rel f) (find_in_lines i ls) (find_in_lines i ls').
Proof.
  intros H. revert i. induction H as [|l l' ls ls' Hl H IH]; intros i; [constructor|]. cbn [find_in_lines].
  destruct (find_line_rel f i l l' Hl) as [c c' Hc|]; [by constructor|apply IH].
Qed.
Definition tline_rel (f : frame) (l l' : trn_line) : Prop :=
  tl_date l' = tl_date l ∧ tl_detail l' = tl_detail l ∧ tl_payment l' = tl_payment l ∧ tl_receipt l' = tl_receipt l ∧ tl_balance l' = tl_balance l ∧
  (fr_den f * tl_top l' = fr_num f * tl_top l + fr_down f)%Z ∧ (fr_den f * tl_height l' = fr_num f * tl_height l)%Z.
Lemma date_rel E f c c' y d l l' : frame_ok f → columns_rel f c c' → line_rel f l l' →
  update_date_from_line E c' y d l' = update_date_from_line E c y d l.
Proof. intros Hf (_ & Hc & _) Hl. unfold update_date_from_line. by rewrite (collect_rel f _ _ l l' Hf Hc Hl). Qed.
Lemma table_rel E f c c' y d ls ls' : frame_ok f → columns_rel f c c' → Forall2 (line_rel f) ls ls' →
  result_alike (Forall2 (tline_rel f)) (read_table_lines E c y d ls) (read_table_lines E c' y d ls').
Proof.
  intros Hf Hc H. revert y d. induction H as [|l l' ls ls' Hl H IH]; intros y d; [constructor|]. cbn [read_table_lines].
  rewrite (date_rel E f c c' y d l l' Hf Hc Hl). destruct (update_date_from_line E c y d l) as [[[fl y1] d1]| |]; [|done..]. cbn [rbind].
  eapply alike_bind; [apply IH|]. intros rest rest' Hr. pose proof Hc as (_ & _ & C1 & C2 & C3 & C4).
  rewrite (join_rel f _ _ l l' Hf C1 Hl), (join_rel f _ _ l l' Hf C2 Hl), (join_rel f _ _ l l' Hf C3 Hl), (join_rel f _ _ l l' Hf C4 Hl).
  destruct fl; [|done|]; (destruct (join_words_in (co_details c) l); [|done]; cbn; constructor; [|done]; destruct Hl as (L1 & L2 & _); split_and!; done).
Qed.
Lemma feed_line_eq E ho a f l l' : tline_rel f l l' → feed_line E ho a l' = feed_line E ho a l.
Proof.
  intros (E1 & E2 & E3 & E4 & E5 & _). unfold feed_line, start_transaction, end_line. by rewrite E1, E2, E3, E4, E5.
Qed.
Lemma lines_rel E ho f prev prev' a ls ls' : frame_ok f → option_Forall2 (tline_rel f) prev prev' → Forall2 (tline_rel f) ls ls' →
  lines_to_transactions E ho prev' a ls' = lines_to_transactions E ho prev a ls.
Proof.
  intros Hf Hp H. revert prev prev' a Hp. induction H as [|l l' ls ls' Hl H IH]; intros prev prev' a Hp; [done|]. cbn [lines_to_transactions].
  rewrite (feed_line_eq E ho a f l l' Hl).
  assert (match prev' with Some p => tl_top p + tl_height p * 2 <? tl_top l' | None => false end =
          match prev with Some p => tl_top p + tl_height p * 2 <? tl_top l | None => false end)%Z as ->.
  { destruct Hp as [p p' Hp|]; [|done]. destruct Hf as [Hn Hd], Hp as (_ & _ & _ & _ & _ & P1 & P2), Hl as (_ & _ & _ & _ & _ & L1 & _).
    apply (lt_scaled (fr_num f) (fr_den f) (fr_down f)); [done|done|lia|done]. }
  destruct (match prev with Some _ => _ | None => _ end); [done|]. destruct (feed_line E ho a l); [|done..]. cbn [rbind].
  apply IH. by constructor.
Qed.
Definition tables_alike (ts ts' : list pdf_table) : Prop :=
  Forall2 (λ t t', ∃ f, frame_ok f ∧ columns_rel f (tb_columns t) (tb_columns t') ∧ Forall2 (line_rel f) (pa_lines (tb_para t)) (pa_lines (tb_para t'))) ts ts'.
Lemma tables_eq E ho a ts ts' : tables_alike ts ts' → read_tables E ho a ts' = read_tables E ho a ts.
Proof.
  intros H. revert a. induction H as [|t t' ts ts' (f & Hf & Hc & Hl) H IH]; intros a; [done|]. cbn [read_tables].
  assert (result_alike (Forall2 (tline_rel f)) (read_lines E t) (read_lines E t')) as Hr.
  { unfold read_lines. destruct Hc as [Hh Hc]. rewrite Hh. apply table_rel; [done|by split|]. by apply Forall2_drop. }
  destruct (read_lines E t) as [ls| |], (read_lines E t') as [ls'| |]; cbn in Hr; try done; [|by subst]. cbn [rbind].
  rewrite (lines_rel E ho f None None a ls ls' Hf); [|constructor|done]. destruct (lines_to_transactions E ho None a ls); [|done..]. apply IH.
Qed.
Lemma numbered_bind {A B} (R : Z → A → A → Prop) (S : B → B → Prop) (g : A → list B) l l' :
  numbered R l l' → (∀ n x x', R n x x' → Forall2 S (g x) (g x')) → Forall2 S (l ≫= g) (l' ≫= g).
Proof.
  intros [Hlen H] Hg. assert (Forall2 (λ x x', Forall2 S (g x) (g x')) l l') as HF.
  { apply Forall2_same_length_lookup_2; [done|]. intros i x y Hx Hy. eapply Hg. by eapply H. }
  clear -HF. induction HF as [|x x' l l' Hx H IH]; [constructor|]. rewrite !bind_cons. by apply Forall2_app.
Qed.
Section frames.
Context (F : Z → Z → Z → frame) (HF : ∀ a b c, frame_ok (F a b c)).
Definition para_alike (p p' : paragraph) : Prop := ∃ f, frame_ok f ∧ Forall2 (line_rel f) (pa_lines p) (pa_lines p').
Lemma block_paras n m b b' : block_rel (F n m) b b' → Forall2 para_alike (bk_paragraphs b) (bk_paragraphs b').
Proof.
  intros [Hlen H]. apply Forall2_same_length_lookup_2; [done|]. intros i x y Hx Hy.
  exists (F n m (Z.of_nat i + 1)%Z). split; [apply HF|]. apply numbered_Forall2. by apply H.
Qed.
Lemma page_paras n p p' : page_rel (F n) p p' → Forall2 para_alike (pg_blocks p ≫= bk_paragraphs) (pg_blocks p' ≫= bk_paragraphs).
Proof. intros H. eapply numbered_bind; [exact H|]. intros m b b' Hb. exact (block_paras n m b b' Hb). Qed.
Lemma page_tables n p p' : page_rel (F n) p p' → tables_alike (find_in_page p) (find_in_page p').
Proof.
  intros H%page_paras. unfold find_in_page. induction H as [|q q' l l' (f & Hf & Hq) H IH]; [constructor|]. csimpl.
  unfold find_in_paragraph. destruct (find_lines_rel f 0 _ _ Hq) as [c c' Hc|]; [|done]. constructor; [|done]. exists f. done.
Qed.
Lemma doc_tables d d' : doc_rel F d d' → tables_alike (d ≫= find_in_page) (d' ≫= find_in_page).
Proof. intros H. eapply numbered_bind; [exact H|]. intros n p p' Hp. exact (page_tables n p p' Hp). Qed.
Lemma account_eq f l l' : line_rel f l l' → account_name_in l' = account_name_in l.
Proof.
  intros (_ & _ & Hl%numbered_Forall2). unfold account_name_in.
  destruct Hl as [|w0 w0' ? ? W0 Hl]; [done|]. destruct Hl as [|w1 w1' ? ? W1 Hl]; [done|].
  destruct Hl as [|w2 w2' ? ? W2 Hl]; [done|]. destruct Hl as [|w3 w3' ? ? W3 Hl]; [done|].
  destruct W0 as [-> _], W1 as [-> _], W2 as [-> _], W3 as [-> _]. done.
Qed.
Lemma name_eq d d' : doc_rel F d d' → find_account_name d' = find_account_name d.
Proof.
  intros H. unfold find_account_name, iter_paragraphs.
  assert (Forall2 (λ l l', ∃ f, line_rel f l l') (((d ≫= pg_blocks) ≫= bk_paragraphs) ≫= pa_lines) (((d' ≫= pg_blocks) ≫= bk_paragraphs) ≫= pa_lines)) as HL.
  { assert (Forall2 para_alike ((d ≫= pg_blocks) ≫= bk_paragraphs) ((d' ≫= pg_blocks) ≫= bk_paragraphs)) as HP.
    { assert (∀ x : document, (x ≫= pg_blocks) ≫= bk_paragraphs = x ≫= λ p, pg_blocks p ≫= bk_paragraphs) as Hb.
      { intros x. induction x as [|p x IH]; [done|]. by rewrite !bind_cons, bind_app, IH. }
      rewrite !Hb. eapply numbered_bind; [exact H|]. intros n p p' Hp. exact (page_paras n p p' Hp). }
    clear -HP. induction HP as [|p p' l l' (f & _ & Hp) H IH]; [constructor|]. rewrite !bind_cons. apply Forall2_app; [|done].
    clear -Hp. induction Hp; constructor; [by eexists|done]. }
  clear -HL. induction HL as [|l l' ls ls' [f Hl] H IH]; [done|]. cbn [first_account_name]. by rewrite (account_eq f l l' Hl), IH.
Qed.
Lemma import_eq E ho o d d' : doc_rel F d d' → pdf_import E ho o d' = pdf_import E ho o d.
Proof.
  intros H. unfold pdf_import. rewrite (name_eq d d' H). destruct (find_account_name d); [|done]. destruct (make_namespace o s); [|done..]. cbn [rbind].
  by rewrite (tables_eq E ho _ _ _ (doc_tables d d' H)).
Qed.
Lemma c142 E ho o rs rs' : Forall2 (option_Forall2 (moved F)) rs rs' → pdf_import_tsv E ho o rs' = pdf_import_tsv E ho o rs.
Proof.
  intros H%tsv_rel. unfold pdf_import_tsv. destruct (from_tsv rs), (from_tsv rs'); cbn in H; try done; [|by subst]. cbn [rbind]. by apply import_eq.
Qed.
End frames.

(** Where on the page the text of a statement is (C142).  The vocabulary is in
    PlaceClaims.v. *)
From Verif Require Import MergeClaims.
From Verif Require Import Base Types SpecBase CommentModel MergeModel FingerprintModel NwCsvModel PaypalModel
  CommentExamples OcrModel PdfModel PdfClaims PdfI32Model PdfI32Claims PdfI32 PdfExamples PdfI32Examples PlaceClaims Place.
From Coq Require Import Lia.
Local Open Scope nat_scope.

(** C142: a statement of which every paragraph is moved, and enlarged or reduced, by any
    measure gives the same transactions, with the same fingerprints, or fails in the
    same way. *)
Theorem C142_placed E ho o F rs rs' : (∀ page block par, frame_ok (F page block par)) →
  Forall2 (option_Forall2 (moved F)) rs rs' → pdf_import_tsv E ho o rs' = pdf_import_tsv E ho o rs.
Proof. intros HF. exact (c142 F HF E ho o rs rs'). Qed.
Print Assumptions C142_placed.
(** With the numbers of the program, as long as they are not astronomical. *)
Theorem C142_placed_i32 checks E ho o F rs rs' : (∀ page block par, frame_ok (F page block par)) →
  Forall2 (option_Forall2 (moved F)) rs rs' →
  (∀ r, Some r ∈ rs → within 715827882 r) → (∀ r, Some r ∈ rs' → within 715827882 r) →
  pdf_import_tsv_i32 checks E ho o rs' = pdf_import_tsv_i32 checks E ho o rs.
Proof. intros HF H H1 H2. rewrite !i32_records by done. exact (c142 F HF E ho o rs rs' H). Qed.
Print Assumptions C142_placed_i32.

(** Two pages; each is enlarged, to the right and down by other amounts. *)
Definition pl_F (page block par : Z) : frame := Frame (page + 2) 1 (17 * page) (100 * page + 10 * par).
Definition pl_move (f : frame) (r : ocr_record) : ocr_record :=
  OcrRecord (or_level r) (or_page r) (or_block r) (or_par r) (or_line r) (or_word r)
    (fr_num f * or_left r + fr_right f) (fr_num f * or_top r + fr_down f) (fr_num f * or_width r) (fr_num f * or_height r) (or_text r).
Definition pl_all (F : Z → Z → Z → frame) (rs : list (option ocr_record)) : list (option ocr_record) :=
  option_map (λ r, pl_move (F (or_page r) (or_block r) (or_par r)) r) <$> rs.
Lemma pl_moved F rs : (∀ a b c, fr_den (F a b c) = 1%Z) → Forall2 (option_Forall2 (moved F)) rs (pl_all F rs).
Proof.
  intros HF. induction rs as [|[r|] rs IH]; [constructor|..]; (apply List.Forall2_cons; [|exact IH]); constructor.
  unfold moved, placed. cbn. rewrite HF. split_and!; first [done|lia].
Qed.
Definition pl_ok (page block par : Z) : frame := if (page <? 1)%Z then Frame 1 1 0 0 else pl_F page block par.
Example C142_ex : (∀ page block par, frame_ok (pl_ok page block par)) ∧
  Forall2 (option_Forall2 (moved pl_ok)) (ex_records_of (ex_doc false)) (pl_all pl_ok (ex_records_of (ex_doc false))) ∧
  pl_all pl_ok (ex_records_of (ex_doc false)) ≠ ex_records_of (ex_doc false) ∧
  trns_made (pdf_import_tsv pdf_ex_env default_order ex_cur (ex_records_of (ex_doc false))) = Ok 3 ∧
  ∀ r, Some r ∈ pl_all pl_ok (ex_records_of (ex_doc false)) → within 715827882 r.
Proof.
  split_and!.
  - intros a b c. unfold pl_ok, frame_ok. destruct (Z.ltb_spec a 1); cbn; lia.
  - apply pl_moved. intros a b c. unfold pl_ok. by destruct (a <? 1)%Z.
  - intros H%(f_equal (λ l, or_left <$> omap id l)). revert H. vm_compute. discriminate.
  - vm_compute. reflexivity.
  - assert (forallb (λ o, match o with Some r => (0 <=? or_left r) && (or_left r <=? 715827882) && (0 <=? or_top r) && (or_top r <=? 715827882) &&
      (0 <=? or_width r) && (or_width r <=? 715827882) && (0 <=? or_height r) && (or_height r <=? 715827882) | None => true end)%Z
      (pl_all pl_ok (ex_records_of (ex_doc false))) = true) as H by (vm_compute; reflexivity).
    rewrite forallb_forall in H. intros r Hr%elem_of_list_In. specialize (H _ Hr). cbn beta iota in H.
    rewrite !andb_true_iff, !Z.leb_le in H. unfold within. tauto.
Qed.
(** The words of a paragraph must be moved together: moved each on its own, an amount
    can come into another column. *)
Definition pl_alone (r : ocr_record) : ocr_record :=
  if bool_decide (or_text r = s2l "10.00") then pl_move (Frame 1 1 100 0) r else r.
Theorem C142_together_needed : ∃ E o rs rs',
  Forall2 (option_Forall2 (λ r r', ∃ f, frame_ok f ∧ placed f r r')) rs rs' ∧
  trns_made (pdf_import_tsv E default_order o rs) = Ok 3 ∧ trns_made (pdf_import_tsv E default_order o rs') = Ok 3 ∧
  pdf_import_tsv E default_order o rs' ≠ pdf_import_tsv E default_order o rs.
Proof.
  exists pdf_ex_env, ex_cur, (ex_records_of (ex_doc false)), (option_map pl_alone <$> ex_records_of (ex_doc false)). split_and!.
  - generalize (ex_records_of (ex_doc false)). intros rs. induction rs as [|[r|] rs IH]; [constructor|..]; (apply List.Forall2_cons; [|exact IH]); constructor.
    unfold pl_alone. case_bool_decide.
    + exists (Frame 1 1 100 0). split; [done|]. unfold placed. cbn. split_and!; first [done|lia].
    + exists (Frame 1 1 0 0). split; [done|]. unfold placed. cbn. split_and!; first [done|lia].
  - vm_compute. reflexivity.
  - vm_compute. reflexivity.
  - intros H%(f_equal (λ r, match r with Ok x => (λ t, (λ p, (λ a, d_neg (a_quantity (pa_amount a))) <$> p_amount p) <$> t_postings t) <$> x.2 | _ => [] end)).
    revert H. vm_compute. discriminate.
Qed.
Print Assumptions C142_together_needed.

(** Specification vocabulary for recognised documents (C64). *)
From stdpp Require Import list.
From Verif Require Import Base OcrModel.
Local Open Scope Z_scope.

(** A part of a document with its place: page, block, paragraph, line, word. *)
Inductive node :=
  | NPage (p : Z)
  | NBlock (p b : Z)
  | NPar (p b q : Z)
  | NLine (p b q l : Z) (top height : Z)
  | NWord (p b q l w : Z) (lft width : Z) (text : str).
Definition path_of (n : node) : list Z :=
  match n with
  | NPage p => [p]
  | NBlock p b => [p; b]
  | NPar p b q => [p; b; q]
  | NLine p b q l _ _ => [p; b; q; l]
  | NWord p b q l w _ _ _ => [p; b; q; l; w]
  end.
(** What a record stands for. *)
Definition stands_for (r : ocr_record) (n : node) : Prop :=
  match n with
  | NPage p => or_level r = 1 ∧ p = or_page r
  | NBlock p b => or_level r = 2 ∧ p = or_page r ∧ b = or_block r
  | NPar p b q => or_level r = 3 ∧ p = or_page r ∧ b = or_block r ∧ q = or_par r
  | NLine p b q l top height => or_level r = 4 ∧ p = or_page r ∧ b = or_block r ∧ q = or_par r ∧ l = or_line r ∧
      top = or_top r ∧ height = or_height r
  | NWord p b q l w lft width text => or_level r = 5 ∧ p = or_page r ∧ b = or_block r ∧ q = or_par r ∧
      l = or_line r ∧ w = or_word r ∧ lft = or_left r ∧ width = or_width r ∧ text = or_text r
  end.

(** The parts of a document, in reading order. *)
Definition word_nodes (p b q l : Z) (w : word) : list node :=
  [NWord p b q l (wd_num w) (wd_left w) (wd_width w) (wd_text w)].
Definition line_nodes (p b q : Z) (l : line) : list node :=
  NLine p b q (ln_num l) (ln_top l) (ln_height l) :: (ln_words l ≫= word_nodes p b q (ln_num l)).
Definition par_nodes (p b : Z) (q : paragraph) : list node :=
  NPar p b (pa_num q) :: (pa_lines q ≫= line_nodes p b (pa_num q)).
Definition block_nodes (p : Z) (b : block) : list node :=
  NBlock p (bk_num b) :: (bk_paragraphs b ≫= par_nodes p (bk_num b)).
Definition page_nodes (p : page) : list node :=
  NPage (pg_num p) :: (pg_blocks p ≫= block_nodes (pg_num p)).
Definition nodes (doc : document) : list node := doc ≫= page_nodes.

(** Numbers 1, 2, 3, ... *)
Definition numbered {A} (num : A → Z) (l : list A) : Prop := ∀ i x, l !! i = Some x → num x = Z.of_nat i + 1.
Record well_numbered (doc : document) : Prop := {
  wn_pages : numbered pg_num doc;
  wn_blocks : ∀ p, p ∈ doc → numbered bk_num (pg_blocks p);
  wn_pars : ∀ p b, p ∈ doc → b ∈ pg_blocks p → numbered pa_num (bk_paragraphs b);
  wn_lines : ∀ p b q, p ∈ doc → b ∈ pg_blocks p → q ∈ bk_paragraphs b → numbered ln_num (pa_lines q);
  wn_words : ∀ p b q l, p ∈ doc → b ∈ pg_blocks p → q ∈ bk_paragraphs b → l ∈ pa_lines q → numbered wd_num (ln_words l);
}.

(** Number of the places in [ps] directly below [pre]. *)
Definition below (pre p : list Z) : Prop := ∃ k, p = pre ++ [k].
#[export] Instance below_dec pre p : Decision (below pre p).
Proof.
  destruct (decide (p ≠ [] ∧ removelast p = pre)) as [[H1 H2]|H].
  - left. exists (List.last p 0). rewrite <- H2. by apply app_removelast_last.
  - right. intros [k ->]. apply H. split; [by destruct pre|]. apply removelast_last.
Defined.
Definition count_below (pre : list Z) (ps : list (list Z)) : nat := length (filter (below pre) ps).
(** The place [p] is the next one below its parent, which is there. *)
Definition fits (ps : list (list Z)) (p : list Z) : Prop :=
  ∃ pre k, p = pre ++ [k] ∧ (pre = [] ∨ pre ∈ ps) ∧ k = Z.of_nat (count_below pre ps) + 1.
(** Every part comes after its parent and after the parts before it. *)
Definition in_order (ns : list node) : Prop :=
  ∀ before n after, ns = before ++ n :: after → fits (path_of <$> before) (path_of n).

(** Specification vocabulary: where on the page recognised text is (C142). *)
From stdpp Require Import list.
From Verif Require Import Base Types OcrModel.
Local Open Scope Z_scope.

(** A change of place and size: [den * x' = num * x + right], and likewise down the
    page. *)
Record frame := Frame { fr_num : Z; fr_den : Z; fr_right : Z; fr_down : Z }.
Definition frame_ok (f : frame) : Prop := 0 < fr_num f ∧ 0 < fr_den f.
(** The same text, at the place that [f] puts it. *)
Definition placed (f : frame) (r r' : ocr_record) : Prop :=
  or_level r' = or_level r ∧ or_page r' = or_page r ∧ or_block r' = or_block r ∧ or_par r' = or_par r ∧
  or_line r' = or_line r ∧ or_word r' = or_word r ∧ or_text r' = or_text r ∧
  fr_den f * or_left r' = fr_num f * or_left r + fr_right f ∧ fr_den f * or_width r' = fr_num f * or_width r ∧
  fr_den f * or_top r' = fr_num f * or_top r + fr_down f ∧ fr_den f * or_height r' = fr_num f * or_height r.
(** Every paragraph of every page may be put somewhere else. *)
Definition moved (F : Z → Z → Z → frame) (r r' : ocr_record) : Prop :=
  placed (F (or_page r) (or_block r) (or_par r)) r r'.

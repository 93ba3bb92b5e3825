(** Specification vocabulary for coordinates (C109). *)
From stdpp Require Import list.
From Verif Require Import MergeClaims.
From Verif Require Import Base OcrModel PdfModel PdfClaims.
Local Open Scope Z_scope.

(** A number that an [i32] holds. *)
Definition i32_holds (z : Z) : Prop := - 2 ^ 31 ≤ z < 2 ^ 31.
(** The right edge of every word, and the place two lines below every line, are numbers of [i32]. *)
Definition coordinates_fit (doc : document) : Prop :=
  ∀ l, l ∈ doc_lines doc → i32_holds (2 * ln_height l) ∧ i32_holds (ln_top l + 2 * ln_height l) ∧
    ∀ w, w ∈ ln_words l → i32_holds (wd_left w + wd_width w).
(** A record with coordinates between nought and [n]. *)
Definition within (n : Z) (r : ocr_record) : Prop :=
  0 ≤ or_left r ≤ n ∧ 0 ≤ or_top r ≤ n ∧ 0 ≤ or_width r ≤ n ∧ 0 ≤ or_height r ≤ n.

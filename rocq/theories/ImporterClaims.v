(** Specification vocabulary for running the importers (C95-C97). *)
From stdpp Require Import gmap list pretty.
From Verif Require Import Base OcrModel ImporterModel.
Local Open Scope nat_scope.

(** The name that Graphics Magick gives to page [i] (from 0), page-%02d.png: at
    least two digits. *)
Definition page_name (i : nat) : str :=
  s2l "page-" ++ (if i <? 10 then s2l "0" else []) ++ s2l (pretty i) ++ s2l ".png".

(** The first program turns the statement into these images, one per page. *)
Definition renders (T : ocr_tools) (pages : list str) : Prop :=
  ∃ status, ot_convert T ∅ = Some (status, list_to_map (imap (λ i g, (page_name i, g)) pages)).
(** The second program recognises the images listed, in the order of the list;
    [records k g] are the records of image [g] as page number [k + 1]. *)
Definition recognises (T : ocr_tools) (records : nat → str → list ocr_record) : Prop :=
  ∀ (d : tmpfiles) (names images : list str),
    d !! s2l "png-files.txt" = Some (names ≫= λ n, ot_dir T ++ s2l "/" ++ n ++ [10%N]) →
    Forall2 (λ n g, 10%N ∉ n ∧ d !! n = Some g) names images →
    ∃ status d' text, ot_tesseract T d = Some (status, d') ∧ d' !! s2l "ocr.tsv" = Some text ∧
      ot_tsv T text = Some <$> mjoin (imap records images).
(** Files can be made. *)
Definition tmp_works (T : ocr_tools) : Prop := ot_tempdir T = false ∧ ot_list T = false.

(** The programs of [T] and [T'] do the same, except for the status they exit with. *)
Definition same_but_status (T T' : ocr_tools) : Prop :=
  ot_dir T' = ot_dir T ∧ ot_tempdir T' = ot_tempdir T ∧ ot_list T' = ot_list T ∧ ot_tsv T' = ot_tsv T ∧
  (∀ d, snd <$> ot_convert T' d = snd <$> ot_convert T d) ∧
  (∀ d, snd <$> ot_tesseract T' d = snd <$> ot_tesseract T d).

(** Model of src/importers/tesseract.rs.

    Simplifications: coordinates and numbers are unbounded integers ([i32] in the
    code; PdfI32Model.v has the sums of coordinates on [i32]), the unused
    field [conf] is left out. *)
From stdpp Require Import list.
From Verif Require Import Base Types.
Local Open Scope Z_scope.

(** src/importers/tesseract.rs:8-24. *)
Record ocr_record := OcrRecord {
  or_level : Z; or_page : Z; or_block : Z; or_par : Z; or_line : Z; or_word : Z;
  or_left : Z; or_top : Z; or_width : Z; or_height : Z; or_text : str }.

(** src/importers/tesseract.rs:249-255. *)
Record word := Word { wd_num : Z; wd_left : Z; wd_width : Z; wd_text : str }.
(** src/importers/tesseract.rs:230-235. *)
Record line := Line { ln_num : Z; ln_top : Z; ln_height : Z; ln_words : list word }.
(** src/importers/tesseract.rs:215-218. *)
Record paragraph := Paragraph { pa_num : Z; pa_lines : list line }.
(** src/importers/tesseract.rs:200-203. *)
Record block := Block { bk_num : Z; bk_paragraphs : list paragraph }.
(** src/importers/tesseract.rs:185-188. *)
Record page := Page { pg_num : Z; pg_blocks : list block }.
(** src/importers/tesseract.rs:26-29: the pages. *)
Definition document := list page.

(** src/importers/tesseract.rs:190-197. *)
Definition page_of (r : ocr_record) : page := Page (or_page r) [].
(** src/importers/tesseract.rs:205-212. *)
Definition block_of (r : ocr_record) : block := Block (or_block r) [].
(** src/importers/tesseract.rs:220-227. *)
Definition paragraph_of (r : ocr_record) : paragraph := Paragraph (or_par r) [].
(** src/importers/tesseract.rs:237-246. *)
Definition line_of (r : ocr_record) : line := Line (or_line r) (or_top r) (or_height r) [].
(** src/importers/tesseract.rs:266-275. *)
Definition word_of (r : ocr_record) : word := Word (or_word r) (or_left r) (or_width r) (or_text r).

(** src/importers/tesseract.rs:277-287; half open intervals. *)
Record bounds := Bounds { bo_min : Z; bo_max : Z }.
Definition overlaps (a b : bounds) : bool := (bo_min b <? bo_max a) && (bo_min a <? bo_max b).
(** src/importers/tesseract.rs:257-264. *)
Definition horiz_bounds (w : word) : bounds := Bounds (wd_left w) (wd_left w + wd_width w).

(** src/importers/tesseract.rs:314-319. *)
Definition num_to_idx (num : Z) : result nat :=
  if num <? 1 then Err EBadTree else Ok (Z.to_nat num - 1)%nat.
(** src/importers/tesseract.rs:289-293 with an update [f] of the element found. *)
Definition get_checked_mut {T} (v : list T) (num : Z) (f : T → result T) : result (list T) :=
  let! idx := num_to_idx num in
  match v !! idx with
  | None => Err EBadTree
  | Some x => let! x := f x in Ok (<[idx := x]> v)
  end.
(** src/importers/tesseract.rs:295-312. *)
Definition push_checked {T} (v : list T) (num : Z) (x : T) : result (list T) :=
  let! idx := num_to_idx num in
  if bool_decide (idx = length v) then Ok (v ++ [x]) else Err EBadTree.

(** src/importers/tesseract.rs:123-141. *)
Definition page_mut (r : ocr_record) (f : page → result page) (doc : document) : result document :=
  get_checked_mut doc (or_page r) f.
Definition block_mut (r : ocr_record) (f : block → result block) : document → result document :=
  page_mut r (λ p, let! bs := get_checked_mut (pg_blocks p) (or_block r) f in Ok (Page (pg_num p) bs)).
Definition paragraph_mut (r : ocr_record) (f : paragraph → result paragraph) : document → result document :=
  block_mut r (λ b, let! ps := get_checked_mut (bk_paragraphs b) (or_par r) f in Ok (Block (bk_num b) ps)).
Definition line_mut (r : ocr_record) (f : line → result line) : document → result document :=
  paragraph_mut r (λ p, let! ls := get_checked_mut (pa_lines p) (or_line r) f in Ok (Paragraph (pa_num p) ls)).

(** src/importers/tesseract.rs:54-121. *)
Definition feed_record (doc : document) (r : ocr_record) : result document :=
  if or_level r =? 1 then push_checked doc (or_page r) (page_of r)
  else if or_level r =? 2 then
    page_mut r (λ p, let! bs := push_checked (pg_blocks p) (or_block r) (block_of r) in Ok (Page (pg_num p) bs)) doc
  else if or_level r =? 3 then
    block_mut r (λ b, let! ps := push_checked (bk_paragraphs b) (or_par r) (paragraph_of r) in Ok (Block (bk_num b) ps)) doc
  else if or_level r =? 4 then
    paragraph_mut r (λ p, let! ls := push_checked (pa_lines p) (or_line r) (line_of r) in Ok (Paragraph (pa_num p) ls)) doc
  else if or_level r =? 5 then
    line_mut r (λ l, let! ws := push_checked (ln_words l) (or_word r) (word_of r) in
                     Ok (Line (ln_num l) (ln_top l) (ln_height l) ws)) doc
  else Err EBadTree.

(** src/importers/tesseract.rs:36-52.  The records are what the csv crate makes of
    the lines; [None] is a line it cannot deserialize. *)
Fixpoint feed_records (doc : document) (rs : list (option ocr_record)) : result document :=
  match rs with
  | [] => Ok doc
  | None :: _ => Err EBadRecord
  | Some r :: rs => let! doc := feed_record doc r in feed_records doc rs
  end.
Definition from_tsv (rs : list (option ocr_record)) : result document := feed_records [] rs.

(** src/importers/tesseract.rs:176-181. *)
Definition iter_paragraphs (doc : document) : list paragraph := (doc ≫= pg_blocks) ≫= bk_paragraphs.

(** Specification vocabulary for the text of comment lines (C37, C101). *)
From Verif Require Import Base Types CommentClaims.
Local Open Scope nat_scope.

(** The texts of a line before, between and after its flag tags.  Tags start at
    the first flag of the line and go on as long as one follows directly:
    [text :a:b: more text] has the texts [text ] and [ more text]. *)
Inductive line_texts : str → list str → Prop :=
  | texts_end l : no_flags l → line_texts l [l]
  | texts_tags t names rest ts :
      no_flags (t ++ [colon]) → names ≠ [] → Forall tag_name names →
      (∀ n b, tag_name n → rest ≠ n ++ colon :: b) →
      line_texts rest ts →
      line_texts (t ++ colon :: (names ≫= λ n, n ++ [colon]) ++ rest) (t :: ts).

(** The text that a line adds to the comment: none if it is a value tag. *)
Definition adds_text (l : str) (ts : list str) : Prop :=
  ((∃ k, value_line k l) ∧ ts = []) ∨ ((∀ k, ¬ value_line k l) ∧ line_texts l ts).

(** [x] is the line [l], or its end after a space. *)
Definition ends_with (x l : str) : Prop := l = x ∨ ∃ a, l = a ++ space :: x.
(** The value tag [key] has this value in line [i] of [ls], and in no later line
    is it given another one. *)
Definition last_value (ls : list str) (key v : str) : Prop :=
  ∃ before l after, ls = before ++ l :: after ∧ value_text key l v ∧ ∀ l', l' ∈ after → ¬ value_line key l'.

(** The lines of a comment as written. *)
Definition text_lines (s : option str) : list str := match s with Some s => split_on newline s | None => [] end.

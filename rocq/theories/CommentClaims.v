(** Specification vocabulary for comments (C31-C37), in terms of text. *)
From Verif Require Import Base Types.
Local Open Scope nat_scope.

Definition colon : char := 58%N.
Definition space : char := 32%N.
Definition newline : char := 10%N.

(** The name of a flag tag or of a value tag, as it can be written in a comment
    line. *)
Definition tag_name (t : str) : Prop := t ≠ [] ∧ ∀ c, c ∈ t → c ≠ colon ∧ c ≠ space.
(** [:t:] occurs in a line. *)
Definition flag_in (t line : str) : Prop :=
  tag_name t ∧ ∃ a b, line = a ++ colon :: t ++ colon :: b.
Definition no_flags (line : str) : Prop := ∀ t, ¬ flag_in t line.

Definition spaces (s : str) : Prop := ∀ c, c ∈ s → c = space.
(** The line has the form of a value tag: [key:] or [key: text]. *)
Definition value_line (key : str) (line : str) : Prop :=
  tag_name key ∧ ∃ sp tail, spaces sp ∧ line = sp ++ key ++ colon :: tail ∧
    (tail = [] ∨ ∃ sp' v, tail = sp' ++ v ∧ spaces sp' ∧ sp' ≠ [] ∧ v ≠ []).

(** What a comment must satisfy to be written and read back unchanged. *)
Record representable (c : comment) : Prop := {
  rp_tags : ∀ t, t ∈ tags c → tag_name t ∧ newline ∉ t;
  rp_lines : ∀ l, l ∈ lines c → l ≠ [] ∧ trim l = l ∧ newline ∉ l ∧ no_flags l;
  (** a line that looks like a value tag is only possible first, after tags; *)
  rp_not_value : ∀ i l k, lines c !! i = Some l → i ≠ 0 ∨ tags c = ∅ → ¬ value_line k l;
  rp_keys : ∀ k v, value_tags c !! k = Some v → tag_name k ∧ trim k = k ∧ newline ∉ k;
  rp_values : ∀ k v, value_tags c !! k = Some v → v ≠ [] ∧ trim v = v ∧ newline ∉ v;
}.

(** What every comment read from text satisfies. *)
Record parsed_shape (c : comment) : Prop := {
  ps_tags : ∀ t, t ∈ tags c → tag_name t ∧ newline ∉ t;
  ps_lines : ∀ l, l ∈ lines c → l ≠ [] ∧ trim l = l ∧ newline ∉ l ∧ no_flags l;
  ps_keys : ∀ k v, value_tags c !! k = Some v → tag_name k ∧ newline ∉ k;
  ps_values : ∀ k v, value_tags c !! k = Some v → newline ∉ v;
}.

(** The line is a value tag for [key] with value [v]: the text after the colon
    and the spaces.  (A text of two or more spaces counts as one space.) *)
Definition value_text (key line v : str) : Prop :=
  tag_name key ∧ ∃ sp sp', spaces sp ∧ spaces sp' ∧
    ((line = sp ++ key ++ [colon] ∧ v = []) ∨
     (line = sp ++ key ++ colon :: sp' ++ v ∧ sp' ≠ [] ∧
        (v = [space] ∨ ∃ c w, v = c :: w ∧ c ≠ space))).

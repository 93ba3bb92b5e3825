(** Specification vocabulary: exactly which comments are read back as they were
    written (C31). *)
From Verif Require Import Base Types SpecBase CommentClaims CommentTextClaims CmdClaims LayoutClaims.
Local Open Scope nat_scope.

(** Tags, lines, keys and values are such as are read from text, without white space
    around them; and no line looks like a value tag (except the first, behind tags).
    Value tags without value can only be there together with the lines that their
    text is read as, which stand last and in order. *)
Record read_back_as_written (c : comment) : Prop := {
  ra_tags : ∀ t, t ∈ tags c → tag_name t ∧ newline ∉ t;
  ra_lines : ∀ l, l ∈ lines c → l ≠ [] ∧ trim l = l ∧ newline ∉ l ∧ no_flags l;
  ra_keys : ∀ k v, value_tags c !! k = Some v → tag_name k ∧ trim k = k ∧ newline ∉ k;
  ra_values : ∀ k v, value_tags c !! k = Some v → trim v = v ∧ newline ∉ v;
  ra_blank : ∃ texts blank, lines c = texts ++ ((λ k, k ++ [colon]) <$> blank) ∧
    sorted_list (λ k, value_tags c !! k = Some []) blank ∧
    (∀ i l k, texts !! i = Some l → i ≠ 0 ∨ tags c = ∅ → ¬ value_line k l) ∧
    (texts = [] → blank = [] ∨ tags c = ∅);
}.
(** Comments are held apart from the transaction and its postings, and the postings
    apart from the transaction. *)
Definition held_apart (tp : transaction_postings) : Prop :=
  t_comment (ti_raw (tp_trn tp)) = None ∧ t_postings (ti_raw (tp_trn tp)) = [] ∧
  ∀ p, p ∈ tp_posts tp → p_comment (pi_raw p) = None.
(** All comments of a transaction are read back as written. *)
Definition all_read_back (tp : transaction_postings) : Prop :=
  read_back_as_written (ti_comment (tp_trn tp)) ∧ ∀ p, p ∈ tp_posts tp → read_back_as_written (pi_comment p).

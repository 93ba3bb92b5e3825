(** Specification vocabulary for the layout of comments (C103). *)
From Verif Require Import Base Types SpecBase CommentClaims CommentTextClaims CmdClaims.
Local Open Scope nat_scope.

(** The sorted list of the texts with a property. *)
Definition sorted_list (P : str → Prop) (l : list str) : Prop := StronglySorted str_lt l ∧ ∀ t, t ∈ l ↔ P t.
(** The lines with tags: the short ones together, the others each on its own line. *)
Definition tags_written (ts : gset str) (out : list str) : Prop :=
  ∃ short long, sorted_list (λ t, t ∈ ts ∧ (utf8_len t ≤ 12)%N) short ∧ sorted_list (λ t, t ∈ ts ∧ (12 < utf8_len t)%N) long ∧
    out = (if decide (short = []) then [] else [s2l ":" ++ (short ≫= λ t, t ++ s2l ":")]) ++ ((λ t, s2l ":" ++ t ++ s2l ":") <$> long).
(** The first line of text goes behind the first line with tags. *)
Definition texts_written (tagged texts out : list str) : Prop :=
  (tagged = [] ∧ out = trim <$> texts) ∨ (texts = [] ∧ out = tagged) ∨
  ∃ t ts x xs, tagged = t :: ts ∧ texts = x :: xs ∧ out = (t ++ s2l " " ++ trim x) :: ts ++ (trim <$> xs).
(** Value tags by key. *)
Definition values_written (m : gmap str str) (out : list str) : Prop :=
  ∃ kvs, StronglySorted str_lt (fst <$> kvs) ∧ (∀ k v, (k, v) ∈ kvs ↔ m !! k = Some v) ∧
    out = (λ kv, trim kv.1 ++ s2l ": " ++ trim kv.2) <$> kvs.
(** The lines of a comment, and its text: none if there are no lines. *)
Definition layout (c : comment) (out : list str) : Prop :=
  ∃ tagged texts values, tags_written (tags c) tagged ∧ texts_written tagged (lines c) texts ∧ values_written (value_tags c) values ∧
    out = texts ++ values.
Definition written (out : list str) (s : option str) : Prop :=
  match s with None => out = [] | Some s => ∃ l ls, out = l :: ls ∧ s = l ++ (ls ≫= λ l, newline :: l) end.

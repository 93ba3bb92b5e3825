(** Specification vocabulary: writing and reading again and again (C119). *)
From Verif Require Import Base Types CommentModel MergeModel SpecBase CommentClaims.
Local Open Scope nat_scope.

(** The text of a comment after it was read and written [n] times. *)
Fixpoint rewritten (ho : nat → hash_order) (n : nat) (s : option str) : option str :=
  match n with
  | 0 => s
  | S n => into_opt_comment (ho n) (from_opt_comment (rewritten ho n s))
  end.
(** The only white space of the text are spaces and line ends. *)
Definition only_spaces (s : option str) : Prop := ∀ t x, s = Some t → x ∈ t → is_ws x = true → x = space ∨ x = newline.
(** The transactions of a file after they were read and written [n] times, given a
    printer and a parser of journals that keep everything. *)
Fixpoint rewritten_all (ho : nat → hash_order) (n : nat) (ts : list transaction) : list transaction :=
  match n with
  | 0 => ts
  | S n => (λ t, transaction_of_postings (ho n) (transaction_postings_of t)) <$> rewritten_all ho n ts
  end.

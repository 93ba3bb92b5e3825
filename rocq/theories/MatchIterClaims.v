(** Specification vocabulary for the iterators of match sets (C68). *)
From Verif Require Import Base Types MergeModel MatchIterModel.
Local Open Scope nat_scope.

(** The number of calls of [next]. *)
Fixpoint nexts (cs : list iter_call) : nat :=
  match cs with [] => 0 | CallNext :: cs => S (nexts cs) | CallSizeHint :: cs => nexts cs end.
(** What a call has to answer after [k] calls of [next], if the values are [d]: the
    next value if there is one, or how many there are left. *)
Definition answer_at {A} (d : list A) (k : nat) (c : iter_call) : iter_answer A :=
  match c with CallNext => Value (d !! k) | CallSizeHint => Hint (length d - k, Some (length d - k)) end.

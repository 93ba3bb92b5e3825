(** Model of the iterators of src/merge/matchset.rs. *)
From Verif Require Import Base Types MergeModel.
Local Open Scope nat_scope.

(** src/merge/matchset.rs:178-182: [IterInner]; an iterator of the standard library
    over a [Vec] or slice is the list of the values to come. *)
Inductive iter_inner (A : Type) := IZero | IOne (a : A) | IMany (rest : list A).
Arguments IZero {A}.
Arguments IOne {A} _.
Arguments IMany {A} _.
(** src/merge/matchset.rs:12-34, 61-63: [iter], [into_iter] by reference and by
    value. *)
Definition iter_of {A} (m : matchset A) : iter_inner A :=
  match m with MZero => IZero | MOne v => IOne v | MMany vs => IMany vs end.
(** src/merge/matchset.rs:98-104: [into_iter] of a [Container]. *)
Definition container_iter {A} (vs : list A) : iter_inner A := IMany vs.
(** src/merge/matchset.rs:111-130 = 147-166: what [next] returns and leaves. *)
Definition iter_next {A} (it : iter_inner A) : option A * iter_inner A :=
  match it with
  | IZero => (None, IZero)
  | IOne v => (Some v, IZero)
  | IMany [] => (None, IMany [])
  | IMany (v :: vs) => (Some v, IMany vs)
  end.
(** src/merge/matchset.rs:132-139 = 168-175. *)
Definition iter_size_hint {A} (it : iter_inner A) : nat * option nat :=
  match it with
  | IZero => (0, Some 0)
  | IOne _ => (1, Some 1)
  | IMany vs => (length vs, Some (length vs))
  end.

(** The calls a user of an iterator can make, and their answers in order. *)
Inductive iter_call := CallNext | CallSizeHint.
Inductive iter_answer (A : Type) := Value (v : option A) | Hint (h : nat * option nat).
Arguments Value {A} _.
Arguments Hint {A} _.
Fixpoint iter_calls {A} (it : iter_inner A) (cs : list iter_call) : list (iter_answer A) :=
  match cs with
  | [] => []
  | CallNext :: cs => let '(v, it) := iter_next it in Value v :: iter_calls it cs
  | CallSizeHint :: cs => Hint (iter_size_hint it) :: iter_calls it cs
  end.

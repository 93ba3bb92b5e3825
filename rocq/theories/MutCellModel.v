(** Model of src/mutcell.rs. *)
From stdpp Require Import list.
From Verif Require Import Base Types.

(** src/mutcell.rs:10-13.  A cell is its state (line 8). *)
Inductive mutcell (T : Type) := Poisoned | Value (v : T).
Arguments Poisoned {T}.
Arguments Value {T} _.

Section mutcell.
  Context {T : Type}.
  (** src/mutcell.rs:17-19; also [default] (98-105), of the default value. *)
  Definition mc_new (v : T) : mutcell T := Value v.
  (** src/mutcell.rs:22-28. *)
  Definition mc_into_inner (c : mutcell T) : result T := match c with Poisoned => Panic | Value v => Ok v end.
  (** src/mutcell.rs:31-37. *)
  Definition mc_is_poisoned (c : mutcell T) : bool := match c with Poisoned => true | Value _ => false end.
  (** src/mutcell.rs:43-52: the cell left behind, also if this panics, and whether
      it does.  [f v = None]: the function panics. *)
  Definition mc_map_value (f : T → option T) (c : mutcell T) : mutcell T * result unit :=
    (* std::mem::replace *)
    let old := c in
    let c := Poisoned in
    match old with
    | Poisoned => (c, Panic)
    | Value v => match f v with Some v' => (Value v', Ok tt) | None => (c, Panic) end
    end.
  (** src/mutcell.rs:55-63, and the use of the reference: [g v] is the value that the
      caller leaves there, and whether the caller then panics. *)
  Definition mc_as_mut (g : T → T * bool) (c : mutcell T) : mutcell T * result unit :=
    match c with
    | Poisoned => (c, Panic)
    | Value v => (Value (g v).1, if (g v).2 then Panic else Ok tt)
    end.
  (** src/mutcell.rs:65-73. *)
  Definition mc_as_ref (c : mutcell T) : result T := match c with Poisoned => Panic | Value v => Ok v end.
  (** src/mutcell.rs:75-82. *)
  Definition mc_clone (c : mutcell T) : result (mutcell T) := let! v := mc_as_ref c in Ok (Value v).
  (** src/mutcell.rs:84-95; [show]: the text of the value. *)
  Definition mc_debug (show : T → str) (c : mutcell T) : str :=
    match c with
    | Poisoned => s2l "MutCell(<poisoned>)"
    | Value v => s2l "MutCell(" ++ show v ++ s2l ")"
    end.
  (** src/mutcell.rs:108-118; [h]: the hash of the value. *)
  Definition mc_hash {H : Type} (h : T → H) (c : mutcell T) : result H := let! v := mc_as_ref c in Ok (h v).
  (** src/mutcell.rs:120-127. *)
  Definition mc_eq (eqb : T → T → bool) (c d : mutcell T) : result bool :=
    let! v := mc_as_ref c in let! w := mc_as_ref d in Ok (eqb v w).

  (** A history: updates one after the other, by someone who catches panics. *)
  Inductive mc_op := OpMap (f : T → option T) | OpMut (g : T → T * bool).
  Definition mc_do (c : mutcell T) (o : mc_op) : mutcell T :=
    match o with OpMap f => (mc_map_value f c).1 | OpMut g => (mc_as_mut g c).1 end.
  Definition mc_run (v : T) (os : list mc_op) : mutcell T := foldl mc_do (mc_new v) os.
End mutcell.
Arguments mc_op : clear implicits.

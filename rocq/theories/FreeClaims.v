(** Specification vocabulary for orders of their own at every iteration (C17, C91). *)
From stdpp Require Import gmap list.
From Verif Require Import Base Types MergeModel FreeOrderModel MergeSpec.

(** Whatever the place, the iteration there lists the table's entries, each once. *)
Definition orders_ok (os : orders) : Prop := ∀ place, hash_order_ok (os place).
Definition dests_ok (ds : dest_orders) : Prop := ∀ place mp, ds place mp ≡ₚ map_to_list mp.

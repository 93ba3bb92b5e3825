(** Books that balance (C130). *)
From stdpp Require Import list.
From Verif Require Import Base Types CommentModel MergeModel SpecBase MergeSpec MergeClaims.
From Coq Require Import QArith.
Local Open Scope nat_scope.

(** In every commodity the amounts of the transaction add up to zero. *)
Definition in_balance (tp : transaction_postings) : Prop := ∀ c, (posts_value c (tp_posts tp) == 0)%Q.
(** An input transaction of which either no posting or each posting has a
    counterpart in the journal. *)
Definition all_or_none (j : journal) (tp : transaction_postings) : Prop :=
  (∀ p, p ∈ tp_posts tp → matches_nothing j (tp_date tp) p) ∨ (∀ p, p ∈ tp_posts tp → ¬ matches_nothing j (tp_date tp) p).

(** A transaction of the journal before a merge, the input transactions merged
    into it, and the same transaction afterwards. *)
Record grown := Grown { g_before : transaction_postings; g_inputs : list transaction_postings; g_after : transaction_postings }.
(** Sum over transactions of the postings that [sel] selects. *)
Definition selected_value (sel : transaction_postings → posting_internal → bool) (c : commodity) (tps : list transaction_postings) : Q :=
  posts_value c (tps ≫= λ tp, filter (λ p, sel tp p = true) (tp_posts tp)).

(** Merges one after the other, each successful, of transactions that balance and
    have all or none of their postings in the journal at that time. *)
Inductive balanced_run : merger → list (hash_order * list transaction_postings) → merger → Prop :=
  | balanced_nil m : balanced_run m [] m
  | balanced_cons ho s m m1 un runs m2 j :
      hash_order_ok ho → merge ho m s = (m1, Ok un) → represents m j →
      (∀ tp, tp ∈ s → to_merge j tp → in_balance tp ∧ all_or_none j tp) →
      balanced_run m1 runs m2 → balanced_run m ((ho, s) :: runs) m2.

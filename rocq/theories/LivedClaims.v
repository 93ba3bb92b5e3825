(** Specification vocabulary for a journal with any history of merges and edits (C136). *)
From stdpp Require Import list.
From Verif Require Import Base Types MergeModel SpecBase MergeClaims HistoryClaims EditClaims.

(** The transactions [T] of the statement [S] were merged: none of them was among
    the transactions [un] handed back. *)
Definition taken (S un T : list transaction_postings) : Prop :=
  T ⊆+ S ∧ ∀ tp, tp ∈ T → tp_posts tp ≠ [] ∧
    ∀ u p q, u ∈ un → p ∈ tp_posts tp → q ∈ tp_posts u → ¬ share_fp q p.

(** [J] is a journal with a history; [sets] is what was merged into it, one list for
    each statement.  The statements may be anything: they may overlap, report the
    same payments under other fingerprints or dates, or be handed back in part. *)
Inductive lived : list (list transaction_postings) → list transaction_postings → Prop :=
  | lived_start J : journal_ok J → lived [] J
  | lived_edit sets J J' : lived sets J → edited J J' → journal_ok J' → lived sets J'
  (** A new merger takes the journal, then some statements, and what it builds
      replaces the journal. *)
  | lived_merge sets J ho un runs m hb out Ts :
      lived sets J → hash_order_ok hb →
      merge_run merger_new ((ho, J, un) :: runs) m → build hb m = Ok out →
      Forall2 (λ r T, taken (run_set r) (run_unmerged r) T) runs Ts →
      lived (sets ++ Ts) out.

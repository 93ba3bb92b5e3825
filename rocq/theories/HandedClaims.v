(** Specification vocabulary: what is handed back leaves no trace (C143). *)
From Verif Require Import Base Types MergeModel.
Local Open Scope nat_scope.

(** The transactions of a set that were not handed back, those numbered [x] with
    [back x] being the ones that were (see [handed] in HistoryClaims.v). *)
Definition kept_back (back : nat → bool) (s : list transaction_postings) : list transaction_postings :=
  mjoin (imap (λ x tp, if back x then [] else [tp]) s).
(** The same of each set of a history. *)
Definition all_kept (back : nat → nat → bool) (sets : list (list transaction_postings)) : list (list transaction_postings) :=
  imap (λ r s, kept_back (back r) s) sets.

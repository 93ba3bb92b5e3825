(** Specification vocabulary for inputs that do not concern each other. *)
From Verif Require Import Base Types SpecBase MergeModel MergeClaims AsideClaims.

(** No two of the sets concern each other. *)
Definition apart (sets : list (list transaction_postings)) : Prop :=
  ∀ i k s t, sets !! i = Some s → sets !! k = Some t → i ≠ k → unconcerned s t.
(** Each of the sets is one that can be merged on its own. *)
Definition each_merges (sets : list (list transaction_postings)) : Prop :=
  ∀ s, s ∈ sets → ∃ ho m, hash_order_ok ho ∧ merge ho merger_new s = (m, Ok []).
(** [l] has the transactions of all the sets, in the order of dates, and those of one
    date in the order of the sets. *)
Definition all_in_order (sets : list (list transaction_postings)) (l : list transaction_postings) : Prop :=
  StronglySorted (λ a b, date_leb (tp_date a) (tp_date b) = true) l ∧
  ∀ d, filter (λ tp, tp_date tp = d) l = mjoin (filter (λ tp, tp_date tp = d) <$> sets).
(** No date has transactions of two of the sets. *)
Definition own_dates (sets : list (list transaction_postings)) : Prop :=
  ∀ i k s t a b, sets !! i = Some s → sets !! k = Some t → a ∈ s → b ∈ t → tp_date a = tp_date b → i = k.

(** Specification vocabulary: other amounts (C146). *)
From Verif Require Import MergeClaims.
From Verif Require Import Base Types CommentModel MergeModel SpecBase.

(** Postings that are the same, but that amounts [a], also in prices and balances,
    are other ones, [a'] with [R a a']. *)
Definition price_other (R : amount → amount → Prop) (p p' : price) : Prop :=
  match p, p' with PriceUnit a, PriceUnit a' | PriceTotal a, PriceTotal a' => R a a' | _, _ => False end.
Definition posting_amount_other (R : amount → amount → Prop) (a a' : posting_amount) : Prop :=
  R (pa_amount a) (pa_amount a') ∧ option_Forall2 (price_other R) (pa_lot_price a) (pa_lot_price a') ∧
  option_Forall2 (price_other R) (pa_price a) (pa_price a').
Definition balance_other (R : amount → amount → Prop) (b b' : balance) : Prop :=
  match b, b' with BalZero, BalZero => True | BalAmount a, BalAmount a' => R a a' | _, _ => False end.
Record post_other (R : amount → amount → Prop) (p p' : posting_internal) : Prop := {
  po_account : p_account (pi_raw p') = p_account (pi_raw p);
  po_reality : p_reality (pi_raw p') = p_reality (pi_raw p);
  po_status : p_status (pi_raw p') = p_status (pi_raw p);
  po_text : p_comment (pi_raw p') = p_comment (pi_raw p);
  po_comment : pi_comment p' = pi_comment p;
  po_amount : option_Forall2 (posting_amount_other R) (p_amount (pi_raw p)) (p_amount (pi_raw p'));
  po_balance : option_Forall2 (balance_other R) (p_balance (pi_raw p)) (p_balance (pi_raw p'));
}.
Definition trn_other (R : amount → amount → Prop) (tp tp' : transaction_postings) : Prop :=
  tp_trn tp' = tp_trn tp ∧ Forall2 (post_other R) (tp_posts tp) (tp_posts tp').

(** Amounts that were the same (in value and currency) still are, and others are not. *)
Definition tells_apart (R : amount → amount → Prop) : Prop :=
  ∀ a a' b b', R a a' → R b b' → (same_amount a' b' ↔ same_amount a b).

(** Two journals made in the same way, one with the old amounts and one with the new, by
    any number of merges, also of ones that failed. *)
Inductive made_other (R : amount → amount → Prop) : merger → merger → Prop :=
  | made_other_new : made_other R merger_new merger_new
  | made_other_merge m m' ho tps tps' : made_other R m m' → Forall2 (trn_other R) tps tps' →
      made_other R (merge ho m tps).1 (merge ho m' tps').1.

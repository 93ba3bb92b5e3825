(** Specification vocabulary: what merging looks at (C115). *)
From Verif Require Import Base Types CommentModel MergeModel SpecBase HeaderClaims.

(** Postings with the same account, amount, balance and flag tags; status, kind,
    text and value tags may differ. *)
Definition post_alike (p p' : posting_internal) : Prop :=
  p_account (pi_raw p') = p_account (pi_raw p) ∧ p_amount (pi_raw p') = p_amount (pi_raw p) ∧
  p_balance (pi_raw p') = p_balance (pi_raw p) ∧ tags (pi_comment p') = tags (pi_comment p).
(** Transactions of the same date with such postings, in the same order. *)
Definition same_posts (tp tp' : transaction_postings) : Prop :=
  t_date (ti_raw (tp_trn tp')) = t_date (ti_raw (tp_trn tp)) ∧ Forall2 post_alike (tp_posts tp) (tp_posts tp').
(** Two journals made by merging sets of such transactions. *)
Inductive made_alike : merger → merger → Prop :=
  | made_alike_new : made_alike merger_new merger_new
  | made_alike_merge m m' ho tps tps' : made_alike m m' → Forall2 same_posts tps tps' →
      made_alike (merge ho m tps).1 (merge ho m' tps').1.

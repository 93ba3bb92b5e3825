(** Specification vocabulary: what rules look at (C148). *)
From stdpp Require Import gmap list.
From Verif Require Import Base Types CmdModel RulesModel RulesClaims.

(** Postings with the same account and tags; amounts, balances, status, other lines of
    comments and the rest may differ. *)
Definition post_looks (p p' : posting_internal) : Prop :=
  p_account (pi_raw p') = p_account (pi_raw p) ∧ tags (pi_comment p') = tags (pi_comment p) ∧
  value_tags (pi_comment p') = value_tags (pi_comment p).
(** Transactions with the same description and such postings; dates, codes, status, also
    the tags of the transaction itself, may differ. *)
Definition looks_alike (tp tp' : transaction_postings) : Prop :=
  t_description (ti_raw (tp_trn tp')) = t_description (ti_raw (tp_trn tp)) ∧ Forall2 post_looks (tp_posts tp) (tp_posts tp').
(** The transaction itself has the same tags. *)
Definition tagged_alike (tp tp' : transaction_postings) : Prop :=
  tags (ti_comment (tp_trn tp')) = tags (ti_comment (tp_trn tp)) ∧
  value_tags (ti_comment (tp_trn tp')) = value_tags (ti_comment (tp_trn tp)).

(** Both do not end (within the bound), or end with the same error, or with results that
    are related. *)
Definition run_alike {A} (P : A → A → Prop) (r r' : run A) : Prop :=
  match r, r' with
  | None, None => True
  | Some (Ok a), Some (Ok a') => P a a'
  | Some (Err e), Some (Err e') => e = e'
  | Some Panic, Some Panic => True
  | _, _ => False
  end.

(** Specification vocabulary for headers of transactions and the merge command (C98, C99). *)
From Verif Require Import Base Types CommentModel MergeModel CmdModel SpecBase CmdClaims.

(** Transactions with the same postings whose headers are related. *)
Definition trn_alike (R : transaction_internal → transaction_internal → Prop) (tp tp' : transaction_postings) : Prop :=
  R (tp_trn tp) (tp_trn tp') ∧ tp_posts tp' = tp_posts tp.
(** Two journals made by merging sets of such transactions. *)
Inductive alike (R : transaction_internal → transaction_internal → Prop) : merger → merger → Prop :=
  | alike_new : alike R merger_new merger_new
  | alike_merge m m' ho tps tps' : alike R m m' → Forall2 (trn_alike R) tps tps' →
      alike R (merge ho m tps).1 (merge ho m' tps').1.
(** Both succeed, with related values, or both fail in the same way. *)
Definition result_alike {A} (P : A → A → Prop) (r r' : result A) : Prop :=
  match r, r' with
  | Ok a, Ok a' => P a a'
  | Err e, Err e' => e = e'
  | Panic, Panic => True
  | _, _ => False
  end.

(** The files hold these transactions, none with a [source-file] tag. *)
Inductive journals (E : env) : world → list filespec → list (list transaction_postings) → world → Prop :=
  | journals_nil w : journals E w [] [] w
  | journals_cons w f l w1 fs tpss w2 :
      reads E w f l w1 → supported l →
      (∀ t, t ∈ ledger_trns l → source_tag (transaction_postings_of t) = None) →
      journals E w1 fs tpss w2 →
      journals E w (f :: fs) ((transaction_postings_of <$> ledger_trns l) :: tpss) w2.

(** Specification vocabulary for balances asserted in a journal (C131). *)
From Verif Require Import MergeClaims.
From Verif Require Import Base Types SpecBase CommentModel NwCsvModel PaypalModel PdfModel ImportClaims PdfClaims.
From Coq Require Import QArith.
Local Open Scope nat_scope.

(** ** Journals *)
Definition on_account (A : str) (ps : list posting_internal) : list posting_internal :=
  filter (λ p, p_account (pi_raw p) = A) ps.
(** What Ledger checks for a posting that states a balance: the account, which had
    [start] in it, has that balance after the postings [ps] to it. *)
Definition assertion_holds (start : commodity → Q) (ps : list posting_internal) (b : balance) : Prop :=
  match b with
  | BalAmount a => (dec_value (a_quantity a) == start (a_commodity a) + posts_value (a_commodity a) ps)%Q
  | BalZero => ∀ c, (start c + posts_value c ps == 0)%Q
  end.
(** All balances stated for postings to the account [A] are right. *)
Definition assertions_hold (A : str) (start : commodity → Q) (ps : list posting_internal) : Prop :=
  ∀ before p after b, ps = before ++ p :: after → p_account (pi_raw p) = A → p_balance (pi_raw p) = Some b →
    assertion_holds start (on_account A (before ++ [p])) b.

(** ** Banks *)
(** What a bank says of a payment: the amount, and the balance after it. *)
Record bank_entry := BankEntry { en_amount : amount; en_balance : option amount }.
Definition amount_in (c : commodity) (a : amount) : Q :=
  if decide (a_commodity a = c) then dec_value (a_quantity a) else 0%Q.
Definition entries_value (c : commodity) (es : list bank_entry) : Q :=
  foldr (λ e s, (amount_in c (en_amount e) + s)%Q) 0%Q es.
(** The balances are those that the amounts give. *)
Definition adds_up (start : commodity → Q) (es : list bank_entry) : Prop :=
  ∀ before e after b, es = before ++ e :: after → en_balance e = Some b →
    (dec_value (a_quantity b) == start (a_commodity b) + entries_value (a_commodity b) (before ++ [e]))%Q.

(** What the rows of the statements say. *)
Definition nw_entry (r : nw_record) (e : bank_entry) : Prop :=
  en_balance e = match r with Five _ => None | Six r => Some (r6_balance r) end ∧
  ((paid_in r = Some (en_amount e) ∧ paid_out r = None) ∨
   (paid_in r = None ∧ ∃ b, paid_out r = Some b ∧ opposite b (en_amount e))).
Definition pp_entry (r : pp_row) : bank_entry := BankEntry (row_amount r) (Some (row_balance r)).
Definition pdf_entry (E : pdf_env) (g : group) (e : bank_entry) : Prop :=
  ∃ d es bs, group_reads E g d (en_amount e) es bs ∧ en_balance e = last bs.
Definition group_date (g : group) : date := default (0%Z, 0%N, 0%N) (tl_date g.1).

(** ** Rules *)
(** The rules put on account [A] what the importer put on assets:unknown, and nothing else. *)
Definition puts_on (A : str) (tps J : list transaction_postings) : Prop :=
  Forall2 (λ tp tp', Forall2 (λ p p', p_account (pi_raw p') = A ↔ p_account (pi_raw p) = s2l "assets:unknown")
    (tp_posts tp) (tp_posts tp')) tps J.

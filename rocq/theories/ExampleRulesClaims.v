(** Specification vocabulary: what the rules of examples/rules.ron do (C122). *)
From Verif Require Import MergeClaims.
From stdpp Require Import gmap list relations.
From Verif Require Import Base Types CommentModel MergeModel CmdModel NwCsvModel SpecBase CmdClaims ImportClaims RulesModel RulesClaims ExampleRulesModel.
Local Open Scope nat_scope.

(** The value of a tag. *)
Definition value_of (p : posting_internal) (k : str) : option str := value_tags (pi_comment p) !! k.
(** The account that the rules give the posting [p] of a transaction with this
    description. *)
Inductive assigned (description : str) (p : posting_internal) : str → Prop :=
  | cash_withdrawn : p_account (pi_raw p) = s2l "expenses:unknown" → description = s2l "ATM Withdrawal" →
      assigned description p (s2l "expenses:petty")
  | salary_paid : p_account (pi_raw p) = s2l "income:unknown" → description = s2l "Payroll" →
      assigned description p (s2l "income:salary")
  | interest_paid : p_account (pi_raw p) = s2l "income:unknown" → description ≠ s2l "Payroll" →
      value_of p (s2l "trn_type") = Some (s2l "Interest") → assigned description p (s2l "income:interest")
  | current_account : p_account (pi_raw p) ∉ [s2l "expenses:unknown"; s2l "income:unknown"] →
      value_of p (s2l "bank") = Some (s2l "Nationwide") → value_of p (s2l "account") = Some (s2l "Current") →
      assigned description p (s2l "assets:nationwide:current")
  | savings_account : p_account (pi_raw p) ∉ [s2l "expenses:unknown"; s2l "income:unknown"] →
      value_of p (s2l "bank") = Some (s2l "Nationwide") → value_of p (s2l "account") = Some (s2l "Savings") →
      assigned description p (s2l "assets:nationwide:savings").
(** What becomes of the posting. *)
Record classified (description : str) (p p' : posting_internal) : Prop := {
  cl_kept : posting_kept p p';
  (** the account assigned, and the tag "unknown-account" if there is none *)
  cl_known : ∀ a, assigned description p a → p_account (pi_raw p') = a ∧ ¬ has_tag p' (s2l "unknown-account");
  cl_unknown : (∀ a, ¬ assigned description p a) →
    p_account (pi_raw p') = p_account (pi_raw p) ∧ has_tag p' (s2l "unknown-account");
  (** other tags stay *)
  cl_tags : ∀ t, t ≠ s2l "unknown-account" → has_tag p' t ↔ has_tag p t;
  (** three value tags go, the others stay *)
  cl_gone : ∀ k, k ∈ [s2l "account"; s2l "bank"; s2l "trn_type"] → value_of p' k = None;
  cl_values : ∀ k, k ∉ [s2l "account"; s2l "bank"; s2l "trn_type"] → value_of p' k = value_of p k;
}.
(** What becomes of a transaction. *)
Definition all_classified (tp tp' : transaction_postings) : Prop :=
  tp_trn tp' = tp_trn tp ∧ Forall2 (classified (t_description (ti_raw (tp_trn tp)))) (tp_posts tp) (tp_posts tp').

(** The file system has the example rules at [path]. *)
Definition has_example_rules (F : rules_fs) (path : str) : Prop :=
  rf_open F path = Some example_rules ∧ is_Some (rf_canonical F path).

(** What becomes of the accounts of a row of a Nationwide statement of the account
    [name], of which the importer knows only "assets:unknown" for the own posting,
    and "expenses:unknown" or "income:unknown" for the peer. *)
Definition own_becomes (name a : str) : Prop :=
  (trim name = s2l "Current" ∧ a = s2l "assets:nationwide:current") ∨
  (trim name = s2l "Savings" ∧ a = s2l "assets:nationwide:savings") ∨
  (trim name ∉ [s2l "Current"; s2l "Savings"] ∧ a = s2l "assets:unknown").
Definition is_interest (r : nw_record) : Prop := ∃ x, r = Six x ∧ trim (r6_type x) = s2l "Interest".
Definition expense_becomes (r : nw_record) (a : str) : Prop :=
  (row_description r = s2l "ATM Withdrawal" ∧ a = s2l "expenses:petty") ∨
  (row_description r ≠ s2l "ATM Withdrawal" ∧ a = s2l "expenses:unknown").
Definition income_becomes (r : nw_record) (a : str) : Prop :=
  (row_description r = s2l "Payroll" ∧ a = s2l "income:salary") ∨
  (row_description r ≠ s2l "Payroll" ∧ is_interest r ∧ a = s2l "income:interest") ∨
  (row_description r ≠ s2l "Payroll" ∧ ¬ is_interest r ∧ a = s2l "income:unknown").
Definition same_account (p q : posting_internal) : Prop := p_account (pi_raw q) = p_account (pi_raw p).

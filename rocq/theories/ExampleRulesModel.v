(** Model of examples/rules.ron: the rules that come with the program, as the ron
    crate reads them. *)
From stdpp Require Import gmap list.
From Verif Require Import Base Types CommentModel MergeModel CmdModel RulesModel.

(** Predicates and rules that occur several times. *)
Definition account_eq (s : string) : predicate := PAccount (MEq (s2l s)).
Definition value_eq (k v : string) : predicate := PValueTag (s2l k) (MEq (s2l v)).
(** examples/rules.ron:50, 63, 73, 88 and 103. *)
Definition failed_to_match : rule := Rule PTrue (AJump (s2l "mark-unknown")) RReturn.

(** examples/rules.ron:2-11. *)
Definition ex_rules_start : list rule :=
  [ Rule PTrue (AAll [AJump (s2l "assign"); AJump (s2l "clean")]) RContinue ].
(** examples/rules.ron:12-24. *)
Definition ex_rules_clean : list rule :=
  [ Rule PTrue (AAll [ARemovePostValue (s2l "account"); ARemovePostValue (s2l "bank"); ARemovePostValue (s2l "trn_type")]) RContinue ].
(** examples/rules.ron:25-27. *)
Definition ex_rules_mark_unknown : list rule :=
  [ Rule PTrue (AAddPostFlag (s2l "unknown-account")) RReturn ].
(** examples/rules.ron:28-51. *)
Definition ex_rules_assign : list rule :=
  [ Rule PTrue (ARemovePostFlag (s2l "unknown-account")) RContinue;
    Rule (account_eq "expenses:unknown") (AJump (s2l "expenses")) RReturn;
    Rule (account_eq "income:unknown") (AJump (s2l "income")) RReturn;
    Rule (PHasValueTag (s2l "bank")) (AJump (s2l "bank_account")) RReturn;
    failed_to_match ].
(** examples/rules.ron:52-64. *)
Definition ex_rules_bank_account : list rule :=
  [ Rule (value_eq "bank" "Nationwide") (AAll [ARemovePostValue (s2l "bank"); AJump (s2l "nationwide")]) RReturn;
    failed_to_match ].
(** examples/rules.ron:65-74. *)
Definition ex_rules_expenses : list rule :=
  [ Rule (PDescription (MEq (s2l "ATM Withdrawal"))) (ASetAccount (s2l "expenses:petty")) RReturn;
    failed_to_match ].
(** examples/rules.ron:75-89. *)
Definition ex_rules_income : list rule :=
  [ Rule (PDescription (MEq (s2l "Payroll"))) (ASetAccount (s2l "income:salary")) RReturn;
    Rule (value_eq "trn_type" "Interest") (ASetAccount (s2l "income:interest")) RReturn;
    failed_to_match ].
(** examples/rules.ron:90-104. *)
Definition ex_rules_nationwide : list rule :=
  [ Rule (value_eq "account" "Current") (ASetAccount (s2l "assets:nationwide:current")) RReturn;
    Rule (value_eq "account" "Savings") (ASetAccount (s2l "assets:nationwide:savings")) RReturn;
    failed_to_match ].
(** examples/rules.ron:1-105. *)
Definition example_rules : list entry :=
  [ EChain (s2l "start") ex_rules_start; EChain (s2l "clean") ex_rules_clean;
    EChain (s2l "mark-unknown") ex_rules_mark_unknown; EChain (s2l "assign") ex_rules_assign;
    EChain (s2l "bank_account") ex_rules_bank_account; EChain (s2l "expenses") ex_rules_expenses;
    EChain (s2l "income") ex_rules_income; EChain (s2l "nationwide") ex_rules_nationwide ].

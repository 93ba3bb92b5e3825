(** C122: the rules of examples/rules.ron.  The vocabulary is in
    ExampleRulesClaims.v, the file itself in ExampleRulesModel.v. *)
From Verif Require Import MergeClaims.
From Coq Require Import QArith.
From stdpp Require Import gmap list relations.
From Verif Require Import Base Types CommentModel MergeModel CmdModel SpecBase BaseProofs FingerprintModel NwCsvModel CommentClaims FingerprintClaims MergeExamples CmdClaims CmdExamples
  ImportClaims ImportProofs ImportRows TestsImport ImportExamples DetailClaims EditClaims RulesModel RulesClaims ExampleRulesModel ExampleRulesClaims ExampleRules ExampleRulesUse ExampleRulesExamples.
Local Open Scope nat_scope.

(** C122 *)
(** They load, all jumps lead somewhere, fingerprints are left alone, and every
    posting of every journal is classified; nothing fails and nothing runs on. *)
Theorem C122_rules F ho path : hash_order_ok ho → has_example_rules F path →
  ∃ T, leaves_fingerprints T ∧ start_and_jumps T ∧ (∀ n, 1 ≤ n → load_from_path F ho n path = Some (Ok T)) ∧
    ∀ X ho' n tps out, 5 ≤ n → update_transactions X ho' T n tps = Some (Ok out) ↔ Forall2 all_classified tps out.
Proof. exact (c122_rules F ho path). Qed.
Print Assumptions C122_rules.
(** Being classified leaves nothing open. *)
Theorem C122_one d p : ∃ p', classified d p p' ∧ ∀ q, classified d p q → q = p'.
Proof. exact (c122_exists d p). Qed.
Print Assumptions C122_one.
Theorem C122_command E X F ho n path input output w tps : hash_order_ok ho → has_example_rules F path → 5 ≤ n →
  journal_read E w input tps → writable E output →
  ∃ es out, rules_cmd E X F ho n path input output w = (es, Ok (Some tt)) ∧ Forall2 all_classified tps out ∧
    holds w (steps w es) output (e_print E (into_ledger ho out)) ∧ ∀ p, output ≠ Path p → same_file w (steps w es) p.
Proof. exact (c122_command E X F ho n path input output w tps). Qed.
Print Assumptions C122_command.
(** On a Nationwide statement, row by row. *)
Theorem C122_nationwide pd ho o records ns ts name rs k t r tp : hash_order_ok ho → parser_ok pd → fields_ok records →
  nw_csv_import pd ho o records = Ok (ns, ts) → statement_reads pd records name rs → ts !! k = Some t → rs !! k = Some r →
  all_classified (transaction_postings_of t) tp →
  ∃ own peer, tp_posts tp = [own; peer] ∧ own_becomes name (p_account (pi_raw own)) ∧
    (has_tag own (s2l "unknown-account") ↔ p_account (pi_raw own) = s2l "assets:unknown") ∧
    (∀ b, paid_out r = Some b → (0 < dec_value (a_quantity b))%Q → expense_becomes r (p_account (pi_raw peer))) ∧
    (∀ a, paid_in r = Some a → (0 < dec_value (a_quantity a))%Q → income_becomes r (p_account (pi_raw peer))) ∧
    (has_tag peer (s2l "unknown-account") ↔ p_account (pi_raw peer) ∈ [s2l "expenses:unknown"; s2l "income:unknown"]).
Proof. exact (c122_nationwide pd ho o records ns ts name rs k t r tp). Qed.
Print Assumptions C122_nationwide.
(** They cannot be applied again: the second time every posting, of whatever
    journal, is marked as one of an unknown account. *)
Theorem C122_twice tps out out' : Forall2 all_classified tps out → Forall2 all_classified out out' →
  (∀ p, p ∈ all_posts out' → has_tag p (s2l "unknown-account")) ∧
  Forall2 (λ tp tp', Forall2 same_account (tp_posts tp) (tp_posts tp')) out out'.
Proof. exact (c122_twice tps out out'). Qed.
Print Assumptions C122_twice.
Example C122_ex : has_example_rules er_F (s2l "/rules.ron") ∧ parser_ok ex_dates ∧ fields_ok (ex_head ++ er_rows) ∧
  nw_csv_import ex_dates default_order ex_opts (ex_head ++ er_rows) = Ok (s2l "cur", er_trns) ∧
  statement_reads ex_dates (ex_head ++ er_rows) (s2l "Current") er_records ∧
  Forall2 all_classified (as_merged er_trns) er_once ∧ Forall2 all_classified er_once er_twice ∧
  er_says er_once =
    [[(s2l "assets:nationwide:current", false); (s2l "expenses:petty", false)];
     [(s2l "assets:nationwide:current", false); (s2l "income:salary", false)];
     [(s2l "assets:nationwide:current", false); (s2l "expenses:unknown", true)]] ∧
  er_says er_twice =
    [[(s2l "assets:nationwide:current", true); (s2l "expenses:petty", true)];
     [(s2l "assets:nationwide:current", true); (s2l "income:salary", true)];
     [(s2l "assets:nationwide:current", true); (s2l "expenses:unknown", true)]].
Proof.
  split; [exact er_file|]. split; [exact ex_dates_ok|]. split; [exact er_fields|]. split; [exact er_imported|]. split; [exact er_statement|].
  split; [exact (proj1 er_classified)|]. split; [exact (proj2 er_classified)|]. split; vm_compute; reflexivity.
Qed.

(** A statement for the examples beside C122. *)
From Verif Require Import MergeClaims.
From Coq Require Import QArith.
From stdpp Require Import gmap list relations.
From Verif Require Import Base Types CommentModel MergeModel CmdModel SpecBase BaseProofs FingerprintModel NwCsvModel CommentClaims FingerprintClaims MergeExamples CmdClaims CmdExamples
  ImportClaims ImportProofs ImportRows TestsImport ImportExamples DetailClaims RulesModel RulesClaims ExampleRulesModel ExampleRulesClaims ExampleRules ExampleRulesUse.
Local Open Scope nat_scope.

(** Cash taken out, a salary, and tea. *)
Definition er_rows : list csv_record :=
  [ ex_row "01 Sep 2021" "ATM Withdrawal" "20.00"; [s2l "01 Sep 2021"; s2l "Payroll"; []; []; gbp "1500.00"]; ex_row "02 Sep 2021" "TEA" "1.20" ].
Definition er_records : list nw_record :=
  [ ex_record 1 "ATM Withdrawal" 2000; Five (RecordFive (2021%Z, 9%N, 1%N) (s2l "Payroll") [] None (Some (Amount (Dec false 2 150000) GBP))); ex_record 2 "TEA" 120 ].
Definition er_trns : list transaction := snd (rok (nw_csv_import ex_dates default_order ex_opts (ex_head ++ er_rows)) ([], [])).
Lemma er_imported : nw_csv_import ex_dates default_order ex_opts (ex_head ++ er_rows) = Ok (s2l "cur", er_trns).
Proof. by_compute. Qed.
Lemma er_fields : fields_ok (ex_head ++ er_rows).
Proof. by apply fields_ok_check. Qed.
Lemma er_statement : statement_reads ex_dates (ex_head ++ er_rows) (s2l "Current") er_records.
Proof. apply ex_reads. vm_compute. reflexivity. Qed.
Definition er_X : text_env := TextEnv (λ _ _, true) (λ _ _ s, s) id.
Definition er_F : rules_fs := RulesFs (λ p, if str_eqb p (s2l "/rules.ron") then Some example_rules else None) Some (λ _, Some (s2l "/")) (λ d p, d ++ s2l "/" ++ p).
Lemma er_file : has_example_rules er_F (s2l "/rules.ron").
Proof. split; [reflexivity|by eexists]. Qed.
Definition er_once : list transaction_postings := match update_transactions er_X default_order ex_rules_T 5 (as_merged er_trns) with Some (Ok out) => out | _ => [] end.
Definition er_twice : list transaction_postings := match update_transactions er_X default_order ex_rules_T 5 er_once with Some (Ok out) => out | _ => [] end.
Lemma er_classified : Forall2 all_classified (as_merged er_trns) er_once ∧ Forall2 all_classified er_once er_twice.
Proof.
  unfold er_twice, er_once.
  destruct (c122_ends er_X default_order 5 (as_merged er_trns) ltac:(lia)) as [out H]. rewrite H.
  destruct (c122_ends er_X default_order 5 out ltac:(lia)) as [out' H']. rewrite H'.
  split; by eapply c122_outcome.
Qed.
Definition er_says (tps : list transaction_postings) : list (list (str * bool)) :=
  (λ tp, (λ p, (p_account (pi_raw p), bool_decide (s2l "unknown-account" ∈ tags (pi_comment p)))) <$> tp_posts tp) <$> tps.

(** Journals kept over time: the merge command, rules. *)
From Verif Require Import MergeClaims.
From stdpp Require Import list gmap.
From Verif Require Import Base Types SpecBase BaseProofs CommentModel MergeModel CmdModel CmdClaims HeaderClaims CmdPlain
  RulesModel RulesClaims RulesProofs RulesLaws EditClaims WindowClaims MergeEdit RulesEdit MergeDays KeptClaims Kept.
Local Open Scope nat_scope.

Lemma kept_command E ho f g um output wd wd' parts seen J w : hash_order_ok ho →
  journal_ok (concat parts) → kept parts seen J → NoDup w → news parts seen w J →
  journals E wd [f; g] [J; window parts w] wd' → (∀ u, um = Some u → writable E u) → writable E output →
  ∃ es J', merge_cmd E ho [f; g] um output wd = (es, Ok tt) ∧ Forall2 trn_refines J J' ∧
    holds wd (steps wd es) output (e_print E (into_ledger ho (stable_sort (by_key tp_date) (J' ++ window parts (unseen seen w))))) ∧
    ∀ p, Path p ≠ output → same_file wd (steps wd es) p.
Proof.
  intros Hho Hok Hk Hnd Hnews Hj Hum Hout.
  destruct (kept_month parts seen J w ho ho Hok Hk Hnd Hnews Hho Hho) as (m1 & m2 & J' & E1 & E2 & HF & Hb).
  destruct (c99_journals E ho [f; g] um output wd [J; window parts w] wd' [] m2) as (es & un' & out & Hc & Hb' & Hu & H1 & _ & H3); try done.
  - change (@nil transaction_postings) with (@nil transaction_postings ++ [] ++ []).
    eapply merges_cons; [done|]. eapply merges_cons; [done|]. constructor.
  - by left.
  - rewrite (Hb ho Hho) in Hb'. injection Hb' as <-. exists es, J'. split_and!; [done..| |].
    + apply H1. right. by left.
    + intros p Hp. by apply H3.
Qed.
Lemma kept_rules parts seen J X T ho n J' : journal_ok (concat parts) → kept parts seen J → hash_order_ok ho →
  leaves_fingerprints T → update_transactions X ho T n J = Some (Ok J') → kept parts seen J'.
Proof.
  intros Hok Hk Hho HT Hu. pose proof (c53_changes X ho T n J J' Hho Hu) as HF.
  eapply kept_edit; [done|by eapply rules_edited|]. eapply rules_journal_ok; [done..|]. by apply (kept_inv parts seen J).
Qed.

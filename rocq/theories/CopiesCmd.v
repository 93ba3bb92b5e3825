(** Proofs for C153: the commands, on files. *)
From stdpp Require Import gmap list.
From Verif Require Import MergeClaims.
From Verif Require Import Base Types CommentModel MergeModel CmdModel SpecBase BaseProofs MergeSpec MergeClaims
  MergeProofs MergeLemmas PropsMergeProofs CommentClaims CmdClaims CmdProofs CmdMerge CmdMerge2 CmdIdem CmdFp HeaderClaims HeaderLaws CmdPlain ReRun
  HandClaims Hand DrawnClaims DrawnCmd CopiesClaims Copies.
From Coq Require Import Lia.
Local Open Scope nat_scope.

Lemma c153_command E ho ho' gen gen' n k hand copy wd es es' text l ho2 um output :
  let J := transaction_postings_of <$> ledger_trns l in
  hash_order_ok ho → hash_order_ok ho' → hash_order_ok ho2 → hand ≠ copy →
  w_files wd !! hand = Some text → w_files wd !! copy = Some text → e_parse E text = Some l →
  unmarked J → told_apart J → separate_ids gen gen' →
  (∀ g, g = gen ∨ g = gen' → ∀ i c, c ∈ g i → c ≠ colon ∧ c ≠ CommentClaims.space ∧ c ≠ newline) →
  (∀ tp, tp ∈ J → comments_writable tp ∧ source_tag tp = None) →
  f_read E (Path hand) = false → f_read E (Path copy) = false →
  fpgen_cmd E ho' gen' k [Path copy] wd = (es', Ok tt) → fpgen_cmd E ho gen n [Path hand] (steps wd es') = (es, Ok tt) →
  let w1 := steps (steps wd es') es in
  (∀ tps', fingerprints_added gen' J tps' → w_files w1 !! copy = Some (e_print E (into_ledger ho' tps')) →
     e_parse E (e_print E (into_ledger ho' tps')) = Some (into_ledger ho' tps')) →
  (∀ tps', fingerprints_added gen J tps' → w_files w1 !! hand = Some (e_print E (into_ledger ho tps')) →
     e_parse E (e_print E (into_ledger ho tps')) = Some (into_ledger ho tps')) →
  (∀ f, um = Some f → writable E f) → writable E output →
  ∃ es2 out, merge_cmd E ho2 [Path hand; Path copy] um output w1 = (es2, Ok tt) ∧ all_both_ids gen gen' J out ∧
    holds w1 (steps w1 es2) output (e_print E (into_ledger ho2 (stable_sort (by_key tp_date) out))) ∧
    ∀ p, Path p ≠ output → same_file w1 (steps w1 es2) p.
Proof.
  intros J Hho Hho' Hho2 Hne Hf Hf' Hp Hu Ht Hs Hc Hcs Hfr Hfr' Hrun' Hrun w1 Hpp' Hpp Hum Hout.
  destruct (fpgen_cmd_files E ho' gen' [copy] (NoDup_singleton copy) k wd es' Hrun') as (_ & _ & _ & _ & _ & _ & _ & S').
  destruct (fpgen_cmd_files E ho gen [hand] (NoDup_singleton hand) n (steps wd es') es Hrun) as (_ & _ & _ & _ & _ & _ & _ & S).
  assert (w_files (steps wd es') !! hand = Some text) as Hf1.
  { unfold same_file in S'. rewrite S'; [done|]. by rewrite elem_of_list_singleton. }
  assert (w_files w1 !! copy = w_files (steps wd es') !! copy) as Ec.
  { apply S. rewrite elem_of_list_singleton. by intros ->. }
  destruct (fpgen_journals E ho' gen' k copy [] [] wd wd es' text l) as (k' & J2 & E2 & Hj2); try done.
  { apply Hc. by right. }
  { constructor. }
  { by intros H%elem_of_nil. }
  { intros tps' Ha Hw. apply Hpp'; [done|]. by rewrite Ec. }
  destruct (fpgen_journals E ho gen n hand [copy] [J2] (steps wd es') (steps wd es') es text l) as (n' & J1 & E1 & Hj1); try done.
  { apply Hc. by left. }
  { by rewrite elem_of_list_singleton. }
  destruct (c153 ho ho' gen gen' n n' k k' J J1 J2 ho2 ho2) as (m1 & m & out & M1 & M2 & Hb & B & _); try done.
  destruct (c99_journals E ho2 _ um output w1 _ _ [] m Hho2 Hj1) as (es2 & un' & out' & R1 & R2 & _ & R3 & _ & R4).
  { change (@nil transaction_postings) with (@nil transaction_postings ++ ([] ++ [])). econstructor; [exact M1|]. econstructor; [exact M2|]. constructor. }
  { by left. } { done. } { done. }
  rewrite B in R2 by done. injection R2 as <-.
  exists es2, out. split; [done|]. split; [done|]. split; [apply R3; by right; left|].
  intros p Hpo. by apply R4.
Qed.

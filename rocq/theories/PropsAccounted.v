(** Where everything goes that the merge command reads (C121).  The vocabulary is in
    AccountedClaims.v, HistoryClaims.v and CmdClaims.v. *)
From Verif Require Import Base Types CommentModel MergeModel CmdModel SpecBase BaseProofs MergeSpec CmdClaims MergeClaims HeaderClaims
  MergeProofs MergeLemmas MergeExamples CmdProofs CmdMerge CmdMerge2 CmdIdem CmdExamples HistoryClaims AccountedClaims Accounted Accounted2 PropsWorkCmd.
Local Open Scope nat_scope.

(** C121: if the merge command succeeds, every transaction of every input file has its
    postings in the journal written, each in one place, or is in the unmerged file
    whole; what the journal says is what these postings say; and every fingerprint
    of an input is in one of the two files, in the journal once. *)
Theorem C121_everything_goes_somewhere E ho inputs um output w tpss w' es :
  hash_order_ok ho → journals E w inputs tpss w' → merge_cmd E ho inputs um output w = (es, Ok tt) →
  ∃ back loc out un,
    accounts_for tpss back loc out ∧ Forall2 in_unmerged (all_handed back tpss) un ∧ (un ≠ [] → is_Some um) ∧
    (∀ s tp p f, s ∈ tpss → tp ∈ s → p ∈ tp_posts tp → has_fp p f →
       once f out ∨ ∃ tp' q, tp' ∈ un ∧ q ∈ tp_posts tp' ∧ has_tag q f) ∧
    let w1 := steps w es in
    (um ≠ Some Stdio ∨ un = [] ∨ output ≠ Stdio → holds w w1 output (e_print E (into_ledger ho out))) ∧
    (∀ f, um = Some f → un ≠ [] → f ≠ output → holds w w1 f (e_print E (into_ledger ho un))) ∧
    (∀ p, Path p ≠ output → (um = Some (Path p) → un = []) → same_file w w1 p).
Proof. exact (c121 E ho inputs um output w tpss w' es). Qed.
Print Assumptions C121_everything_goes_somewhere.
(** The same for any files, also with source tags: the sets read are those of C26 (each
    transaction with its source, grouped by source); only the source tag is missing in
    the journal, and it is kept on what is handed back. *)
Theorem C121_with_sources E ho inputs um output w es :
  hash_order_ok ho → merge_cmd E ho inputs um output w = (es, Ok tt) →
  ∃ sets w' back loc merged out un,
    all_inputs E w inputs sets w' ∧ accounts_for sets back loc merged ∧ Forall2 unsourced merged out ∧
    Forall2 returned_unmerged (all_handed back sets) un ∧ (un ≠ [] → is_Some um) ∧
    (∀ s tp p f, s ∈ sets → tp ∈ s → p ∈ tp_posts tp → has_fp p f →
       once f out ∨ ∃ tp' q, tp' ∈ un ∧ q ∈ tp_posts tp' ∧ has_tag q f) ∧
    let w1 := steps w es in
    (um ≠ Some Stdio ∨ un = [] ∨ output ≠ Stdio → holds w w1 output (e_print E (into_ledger ho out))) ∧
    (∀ f, um = Some f → un ≠ [] → f ≠ output → holds w w1 f (e_print E (into_ledger ho un))) ∧
    (∀ p, Path p ≠ output → (um = Some (Path p) → un = []) → same_file w w1 p).
Proof. exact (c121_sources E ho inputs um output w es). Qed.
Print Assumptions C121_with_sources.
(** Two files; one transaction is handed back. *)
Example C121_ex : journals ex_E ex_w ex_inputs ex_sets ex_w ∧
  merge_cmd ex_E default_order ex_inputs ex_um (Path (s2l "out")) ex_w = (ex_run.1, Ok tt) ∧
  length (mjoin ex_sets) = 7 ∧ length ex_un = 1 ∧ length (strip_sources ex_built) = 4 ∧
  ex_parse ex_c1 (s2l "OUT") = Some (into_ledger default_order (strip_sources ex_built)).
Proof. split_and!; [exact ex_journals|exact ex_run_ok|by_compute|by_compute|by_compute|by_compute]. Qed.

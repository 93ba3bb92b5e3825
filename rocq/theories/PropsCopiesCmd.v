(** Two copies of one journal that were given fingerprints separately, as files (C153).
    The vocabulary is in CopiesClaims.v. *)
From stdpp Require Import gmap list.
From Verif Require Import MergeClaims.
From Verif Require Import Base Types SpecBase BaseProofs CommentModel CommentClaims MergeModel MergeExamples CmdModel CmdClaims CmdExamples CmdIdem
  HandExamples HeaderClaims DrawnClaims CopiesClaims Copies CopiesCmd PropsCopies.
From Coq Require Import Lia.
Local Open Scope nat_scope.

(** C153, for the commands: two files with the same journal, generate-fingerprints on the
    one and on the other, and the merge command on both.  It succeeds and writes the
    journal once, each posting with the fingerprints of both runs, and writes no other file. *)
Theorem C153_commands E ho ho' gen gen' n k hand copy wd es es' text l ho2 um output :
  let J := transaction_postings_of <$> ledger_trns l in
  hash_order_ok ho → hash_order_ok ho' → hash_order_ok ho2 → hand ≠ copy →
  w_files wd !! hand = Some text → w_files wd !! copy = Some text → e_parse E text = Some l →
  unmarked J → told_apart J → separate_ids gen gen' →
  (* the ids, and the comments of the journal, can be written *)
  (∀ g, g = gen ∨ g = gen' → ∀ i c, c ∈ g i → c ≠ colon ∧ c ≠ CommentClaims.space ∧ c ≠ newline) →
  (∀ tp, tp ∈ J → comments_writable tp ∧ source_tag tp = None) →
  f_read E (Path hand) = false → f_read E (Path copy) = false →
  fpgen_cmd E ho' gen' k [Path copy] wd = (es', Ok tt) → fpgen_cmd E ho gen n [Path hand] (steps wd es') = (es, Ok tt) →
  let w1 := steps (steps wd es') es in
  (* what these commands write is read back *)
  (∀ tps', fingerprints_added gen' J tps' → w_files w1 !! copy = Some (e_print E (into_ledger ho' tps')) →
     e_parse E (e_print E (into_ledger ho' tps')) = Some (into_ledger ho' tps')) →
  (∀ tps', fingerprints_added gen J tps' → w_files w1 !! hand = Some (e_print E (into_ledger ho tps')) →
     e_parse E (e_print E (into_ledger ho tps')) = Some (into_ledger ho tps')) →
  (∀ f, um = Some f → writable E f) → writable E output →
  ∃ es2 out, merge_cmd E ho2 [Path hand; Path copy] um output w1 = (es2, Ok tt) ∧ all_both_ids gen gen' J out ∧
    holds w1 (steps w1 es2) output (e_print E (into_ledger ho2 (stable_sort (by_key tp_date) out))) ∧
    ∀ p, Path p ≠ output → same_file w1 (steps w1 es2) p.
Proof. exact (c153_command E ho ho' gen gen' n k hand copy wd es es' text l ho2 um output). Qed.
Print Assumptions C153_commands.

(** The journal of PropsCopies.v in two files. *)
Definition cc_l : ledger := into_ledger default_order cp_J.
Definition cc_l1 : ledger := into_ledger default_order (cp_1 cp_J).
Definition cc_l2 : ledger := into_ledger default_order (cp_2 cp_J).
Definition cc_codec := [(s2l "H", cc_l); (s2l "F1", cc_l1); (s2l "F2", cc_l2)].
Definition cc_E : env := ex_env cc_codec.
Definition cc_w : world := World {[ s2l "hand" := s2l "H"; s2l "copy" := s2l "H" ]} ∅ [] [].
Definition cc_run' := fpgen_cmd cc_E default_order cp_gen' 0 [Path (s2l "copy")] cc_w.
Definition cc_run := fpgen_cmd cc_E default_order cp_gen 0 [Path (s2l "hand")] (steps cc_w cc_run'.1).
Definition cc_w1 : world := steps (steps cc_w cc_run'.1) cc_run.1.
Definition cc_J : list transaction_postings := transaction_postings_of <$> ledger_trns cc_l.
Lemma cc_written f t L' : w_files cc_w1 !! f = Some t →
  (filter (λ e, e = t) (cc_codec.*1 ++ [s2l "?"]), ex_parse cc_codec t) = ([t], Some L') → e_print cc_E L' = t →
  ∀ L, w_files cc_w1 !! f = Some (e_print cc_E L) → e_parse cc_E (e_print cc_E L) = Some L.
Proof.
  intros E H E2 L H1. rewrite E in H1. apply (inj Some) in H1.
  assert (L = L') as ->. { apply (ex_print_inv cc_codec t); [exact H|symmetry; exact H1]. }
  rewrite E2. by injection H.
Qed.
Example C153_commands_ex : unmarked cc_J ∧ told_apart cc_J ∧ separate_ids cp_gen cp_gen' ∧
  (∀ g, g = cp_gen ∨ g = cp_gen' → ∀ i c, c ∈ g i → c ≠ colon ∧ c ≠ CommentClaims.space ∧ c ≠ newline) ∧
  (∀ tp, tp ∈ cc_J → comments_writable tp ∧ source_tag tp = None) ∧
  (∀ L, w_files cc_w1 !! s2l "copy" = Some (e_print cc_E L) → e_parse cc_E (e_print cc_E L) = Some L) ∧
  (∀ L, w_files cc_w1 !! s2l "hand" = Some (e_print cc_E L) → e_parse cc_E (e_print cc_E L) = Some L) ∧
  (cc_run'.2, cc_run.2, w_files cc_w1 !! s2l "hand", w_files cc_w1 !! s2l "copy") = (Ok tt, Ok tt, Some (s2l "F1"), Some (s2l "F2")).
Proof.
  split_and!.
  - apply cp_unmarked; by_compute.
  - apply cp_told; by_compute.
  - exact cp_ids.
  - intros g [->| ->] i c [-> _]%elem_of_replicate; by_compute.
  - intros tp Htp. split; [revert tp Htp; apply writable_compute; by_compute|].
    assert (Forall (λ tp, source_tag tp = None) cc_J) as F by by_compute. rewrite Forall_forall in F. by apply F.
  - apply (cc_written (s2l "copy") (s2l "F2") cc_l2); vm_compute; reflexivity.
  - apply (cc_written (s2l "hand") (s2l "F1") cc_l1); vm_compute; reflexivity.
  - vm_compute. reflexivity.
Qed.

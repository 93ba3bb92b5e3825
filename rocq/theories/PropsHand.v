(** C118: a journal written by hand, given fingerprints, and merged with what the
    bank reports.  The vocabulary is in TwinClaims.v and HandClaims.v. *)
From Verif Require Import Base Types CommentModel MergeModel CmdModel SpecBase MergeSpec MergeClaims MergeExamples CommentClaims CmdClaims
  CmdExamples HeaderClaims TwinClaims TwinExamples HandClaims Hand HandExamples.
Local Open Scope nat_scope.

(** C118: [tps'] is the journal after [generate-fingerprints].  It is merged with the
    bank's statement without anything handed back, and each payment is in the result
    once; the statement can come again and changes nothing. *)
Theorem C118_joined w extra ho gen n n' tps' ho1 ho2 :
  hand_and_bank w extra → hash_order_ok ho → hash_order_ok ho1 → hash_order_ok ho2 →
  new_ids gen (all_posts (first_source w) ++ all_posts (second_source w extra)) →
  fpgen_trns ho gen n (first_source w) = (n', tps') →
  ∃ w' m1 m, fingerprinted gen w w' ∧ first_source w' = tps' ∧ two_sources w' extra ∧
    merge ho1 merger_new tps' = (m1, Ok []) ∧
    merge ho2 m1 (second_source w extra) = (m, Ok []) ∧
    (∀ hb, hash_order_ok hb → build hb m = Ok (stable_sort (by_key tp_date) ((joined <$> w') ++ extra))) ∧
    (∀ ho3, hash_order_ok ho3 → merge ho3 m (second_source w extra) = (m, Ok [])).
Proof. exact (c118_joined w extra ho gen n n' tps' ho1 ho2). Qed.
Print Assumptions C118_joined.
(** A payment both know has the header written by hand; each posting has the account
    written by hand where that was known, and the bank's fingerprint. *)
Theorem C118_both gen w w' extra a tp tp' qs :
  fingerprinted gen w w' → two_sources w' extra → w !! a = Some (tp, Some (tp', qs)) →
  ∃ out, joined <$> w' !! a = Some out ∧ tp_trn out = tp_trn tp ∧ length (tp_posts out) = length (tp_posts tp) ∧
    ∀ b p q, tp_posts tp !! b = Some p → qs !! b = Some q → ∃ r, tp_posts out !! b = Some r ∧
      (∀ f, has_fp p f ∨ has_fp q f → has_fp r f) ∧
      (∀ f, has_fp r f → has_fp p f ∨ has_fp q f ∨ (∀ f, ¬ has_fp p f) ∧ ∃ i, f = s2l "fp-uuidb64-" ++ gen i) ∧
      (unknown_account r ↔ unknown_account p ∧ unknown_account q) ∧
      (¬ unknown_account p → p_account (pi_raw r) = p_account (pi_raw p)) ∧
      (unknown_account p → ¬ unknown_account q → p_account (pi_raw r) = p_account (pi_raw q)).
Proof. exact (c118_both gen w w' extra a tp tp' qs). Qed.
Print Assumptions C118_both.
(** With files: [generate-fingerprints] on the journal, then [merge] of the journal and
    the bank's file, to any output, the journal itself included. *)
Theorem C118_commands E ho ho2 gen n hand bank um output w extra wd es text l :
  hash_order_ok ho → hash_order_ok ho2 → hand_and_bank w extra →
  new_ids gen (all_posts (first_source w) ++ all_posts (second_source w extra)) →
  (* the ids, and the comments of the journal, can be written *)
  (∀ i c, c ∈ gen i → c ≠ colon ∧ c ≠ CommentClaims.space ∧ c ≠ newline) →
  w_files wd !! hand = Some text → e_parse E text = Some l → first_source w = transaction_postings_of <$> ledger_trns l →
  (∀ tp, tp ∈ first_source w → comments_writable tp ∧ source_tag tp = None) →
  journals E wd [Path bank] [second_source w extra] wd → bank ≠ hand →
  (* what the first command writes is read back *)
  (∀ tps', fingerprints_added gen (first_source w) tps' → w_files (steps wd es) !! hand = Some (e_print E (into_ledger ho tps')) →
     e_parse E (e_print E (into_ledger ho tps')) = Some (into_ledger ho tps')) →
  fpgen_cmd E ho gen n [Path hand] wd = (es, Ok tt) →
  f_read E (Path hand) = false → (∀ f, um = Some f → writable E f) → writable E output →
  ∃ w' es2, let w1 := steps wd es in
    fingerprinted gen w w' ∧ two_sources w' extra ∧
    merge_cmd E ho2 [Path hand; Path bank] um output w1 = (es2, Ok tt) ∧
    holds w1 (steps w1 es2) output (e_print E (into_ledger ho2 (stable_sort (by_key tp_date) ((joined <$> w') ++ extra)))) ∧
    ∀ p, Path p ≠ output → same_file w1 (steps w1 es2) p.
Proof. exact (c118_command E ho ho2 gen n hand bank um output w extra wd es text l). Qed.
Print Assumptions C118_commands.

(** A transfer the bank reports too, a purchase it does not know, a fee only it knows. *)
Example C118_ex : hand_and_bank hd_w [hd_b2] ∧ new_ids hd_gen (all_posts (first_source hd_w) ++ all_posts (second_source hd_w [hd_b2])) ∧
  (* without fingerprints the journal is refused *)
  (merge default_order merger_new (first_source hd_w)).2 = Err ENoFingerprint ∧
  hd_view hd_out =
    [(s2l "rainy days", [(bank, [s2l "fp-uuidb64-A"; s2l "fp-b1"; s2l "mine"]); (hd_savings, [s2l "fp-uuidb64-B"; s2l "fp-b2"])]);
     (s2l "market, cash", [(s2l "assets:cash", [s2l "fp-uuidb64-C"]); (food, [s2l "fp-uuidb64-D"])]);
     (s2l "FEE", [(bank, [s2l "fp-b3"]); (unknown, [s2l "fp-b4"; s2l "unknown-account"])])].
Proof. split; [exact hd_ok|]. split; [exact hd_ids|]. vm_compute. split; reflexivity. Qed.
Example C118_commands_ex :
  w_files hd_world !! s2l "hand" = Some (s2l "H") ∧ e_parse hd_E (s2l "H") = Some hd_l1 ∧
  bool_decide (first_source hd_w = transaction_postings_of <$> ledger_trns hd_l1) = true ∧
  (∀ tp, tp ∈ first_source hd_w → comments_writable tp ∧ source_tag tp = None) ∧
  journals hd_E hd_world [Path (s2l "bank")] [second_source hd_w [hd_b2]] hd_world ∧
  (∀ tps', fingerprints_added hd_gen (first_source hd_w) tps' →
     w_files (steps hd_world hd_run.1) !! s2l "hand" = Some (e_print hd_E (into_ledger default_order tps')) →
     e_parse hd_E (e_print hd_E (into_ledger default_order tps')) = Some (into_ledger default_order tps')) ∧
  (hd_run.2, hd_run2.2, w_files (steps (steps hd_world hd_run.1) hd_run2.1) !! s2l "hand") = (Ok tt, Ok tt, Some (s2l "OUT")).
Proof.
  split; [vm_compute; reflexivity|]. split; [vm_compute; reflexivity|]. split; [vm_compute; reflexivity|].
  split; [exact hd_writable|]. split; [exact hd_bank_file|]. split; [exact hd_written|]. vm_compute. reflexivity.
Qed.

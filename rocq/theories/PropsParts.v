(** C107: merging in several runs, the journal being written and read in between. *)
From Verif Require Import MergeClaims.
From Verif Require Import Base Types SpecBase BaseProofs CommentModel MergeModel CmdModel MergeSpec MergeBuild MergeLemmas
  CommentClaims CmdClaims CommentExamples MergeExamples PropsMergeProofs CmdExamples HeaderClaims ResolveClaims MergeResolve ReRunExamples PartsClaims RenumInit Parts.
From Coq Require Import Lia.
Local Open Scope nat_scope.

(** C107: after any calls whose input transactions have the same date if they have a
    common fingerprint, the journal built can be merged into an empty one, and any
    further calls have the same outcome there as they have without that detour. *)
Theorem C107_in_parts h0 ho ho1 out :
  Forall (λ s, hash_order_ok s.1) h0 → steady h0.*2 →
  hash_order_ok ho → hash_order_ok ho1 → build ho (after merger_new h0) = Ok out →
  ∃ m', merge ho1 merger_new out = (m', Ok []) ∧
  ∀ h h', Forall (λ s, hash_order_ok s.1) h → Forall (λ s, hash_order_ok s.1) h' → h.*2 = h'.*2 →
    Forall2 outcome_alike (outcomes (after merger_new h0) h) (outcomes m' h') ∧
    ∀ ho2 ho2', hash_order_ok ho2 → hash_order_ok ho2' →
      build ho2 (after (after merger_new h0) h) = build ho2' (after m' h').
Proof. exact (c107_steady h0 ho ho1 out). Qed.
Print Assumptions C107_in_parts.
(** What the dates are needed for: every posting is to be recorded under the date of
    its transaction.  This is the condition for any journal. *)
Theorem C107_recorded_dates m j ho ho1 out m' un :
  reachable m → represents m j → dates_agree j → hash_order_ok ho → hash_order_ok ho1 →
  build ho m = Ok out → merge ho1 merger_new out = (m', Ok un) →
  ∀ h h', Forall (λ s, hash_order_ok s.1) h → Forall (λ s, hash_order_ok s.1) h' → h.*2 = h'.*2 →
  Forall2 outcome_alike (outcomes m h) (outcomes m' h') ∧
  ∀ ho2 ho2', hash_order_ok ho2 → hash_order_ok ho2' → build ho2 (after m h) = build ho2' (after m' h').
Proof. exact (c107 m j ho ho1 out m' un). Qed.
Print Assumptions C107_recorded_dates.
(** Without it the results differ: in one run the last input becomes a transaction of
    its own, after writing and reading it is merged into the existing one. *)
Theorem C107_dates_needed : ∃ s1 s2 s3 out out1 out2,
  let o := default_order in
  build o (after merger_new [(o, s1); (o, s2)]) = Ok out ∧
  build o (after merger_new [(o, s1); (o, s2); (o, s3)]) = Ok out1 ∧
  build o (after merger_new [(o, out); (o, s3)]) = Ok out2 ∧
  Forall (λ r, r = Ok []) (outcomes merger_new [(o, s1); (o, s2); (o, s3)]) ∧
  Forall (λ r, r = Ok []) (outcomes merger_new [(o, out); (o, s3)]) ∧
  length out1 = 2 ∧ length out2 = 1.
Proof. exact c107_dates_needed. Qed.
Print Assumptions C107_dates_needed.

(** The same by the command, through a file: merging [a] to the file [o] and then [o]
    with [b] succeeds if merging [a] and [b] at once does, and writes the same text. *)
Theorem C107_command E hoA hoB hoO a b umA umB umO o oB oO w ta tb esA esB esO rB rO :
  hash_order_ok hoA → hash_order_ok hoB → hash_order_ok hoO →
  journals E w (Path <$> a) ta w → journals E w (Path <$> b) tb w → steady ta →
  (* the first run leaves the files of the second alone *)
  o ∉ b → (∀ p, p ∈ b → umA ≠ Some (Path p)) →
  (* all runs have a place for unmerged transactions, or none *)
  (is_Some umA ↔ is_Some umO) → (is_Some umB ↔ is_Some umO) →
  (* nothing goes wrong with the files *)
  f_read E (Path o) = false → (∀ f, writable E f) →
  (* printer and parser agree on the text of the first run, and comments can be written *)
  (∀ un m out, merges hoA merger_new ta un m → build hoA m = Ok out →
     e_parse E (e_print E (into_ledger hoA out)) = Some (into_ledger hoA out) ∧ ∀ tp, tp ∈ out → comments_writable tp) →
  merge_cmd E hoA (Path <$> a) umA (Path o) w = (esA, Ok tt) →
  merge_cmd E hoB (Path o :: (Path <$> b)) umB (Path oB) (steps w esA) = (esB, rB) →
  merge_cmd E hoO (Path <$> (a ++ b)) umO (Path oO) w = (esO, rO) →
  (rB = Ok tt ↔ rO = Ok tt) ∧
  (rO = Ok tt → ∃ text, w_files (steps (steps w esA) esB) !! oB = Some text ∧ w_files (steps w esO) !! oO = Some text).
Proof. exact (c107_cmd E hoA hoB hoO a b umA umB umO o oB oO w ta tb esA esB esO rB rO). Qed.
Print Assumptions C107_command.

(** Two journals of which the second adds to the first. *)
Example C107_ex : ∃ out,
  let h0 := [(default_order, ex_s0); (default_order, ex_s1)] in
  Forall (λ s, hash_order_ok s.1) h0 ∧ steady h0.*2 ∧ build default_order (after merger_new h0) = Ok out ∧
  length out > 0 ∧ out ≠ ex_s0.
Proof.
  eexists. cbv zeta. split_and!.
  - apply Forall_cons; split; [exact default_order_ok|]. apply Forall_cons; split; [exact default_order_ok|done].
  - apply steady_compute. vm_compute. reflexivity.
  - vm_compute. reflexivity.
  - vm_compute. lia.
  - by_compute.
Qed.
Example C107_command_ex :
  journals pp_E ex_w (Path <$> [s2l "a"]) [transaction_postings_of <$> ledger_trns ex_l1] ex_w ∧
  journals pp_E ex_w (Path <$> [s2l "b"]) [transaction_postings_of <$> ledger_trns rr_l2] ex_w ∧
  steady [transaction_postings_of <$> ledger_trns ex_l1] ∧ (∀ f, writable pp_E f) ∧
  (∀ un m out, merges default_order merger_new [transaction_postings_of <$> ledger_trns ex_l1] un m → build default_order m = Ok out →
     e_parse pp_E (e_print pp_E (into_ledger default_order out)) = Some (into_ledger default_order out) ∧
     ∀ tp, tp ∈ out → comments_writable tp) ∧
  pp_A.2 = Ok tt ∧ pp_B.2 = Ok tt ∧ pp_O.2 = Ok tt ∧
  w_files (steps (steps ex_w pp_A.1) pp_B.1) !! s2l "out" = Some (s2l "OUT") ∧
  w_files (steps ex_w pp_O.1) !! s2l "once" = Some (s2l "OUT").
Proof.
  split_and!.
  - exact (proj1 pp_journals).
  - exact (proj2 pp_journals).
  - apply steady_compute. vm_compute. reflexivity.
  - by intros [].
  - intros un m out Hm Hb. assert (m = (merge default_order merger_new (transaction_postings_of <$> ledger_trns ex_l1)).1) as ->.
    { exact (one_merge _ _ _ _ Hm). }
    assert (out = pp_mid) as -> by (unfold pp_mid; by rewrite Hb). split; [by_compute|]. apply writable_compute. by_compute.
  - by_compute.
  - by_compute.
  - by_compute.
  - by_compute.
  - by_compute.
Qed.

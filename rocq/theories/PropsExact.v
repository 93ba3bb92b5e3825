(** C31 and C61 in both directions.  The vocabulary is in ExactClaims.v. *)
From Verif Require Import MergeClaims.
From Verif Require Import Base Types SpecBase BaseProofs CommentModel MergeModel CmdModel CommentClaims CommentTextClaims CommentExamples CmdClaims LayoutClaims ExactClaims
  CmdProofs CmdIdem MergeExamples CmdExamples Exact ExactFile.
Local Open Scope nat_scope.

(** C31: exactly these comments are read back as they were written, *)
Theorem C31_exact ho c : hash_order_ok ho → from_opt_comment (into_opt_comment ho c) = c ↔ read_back_as_written c.
Proof. exact (exact_round_trip ho c). Qed.
Print Assumptions C31_exact.
(** those of C31_comment_round_trip among them; *)
Theorem C31_representable c : representable c → read_back_as_written c.
Proof. exact (representable_exact c). Qed.
Print Assumptions C31_representable.
(** and exactly their texts are left alone by formatting. *)
Theorem C31_fixed_texts ho s : hash_order_ok ho → into_opt_comment ho (from_opt_comment s) = s ↔ ∃ c, read_back_as_written c ∧ into_opt_comment ho c = s.
Proof. exact (exact_fixed_points ho s). Qed.
Print Assumptions C31_fixed_texts.
Example C31_exact_ex : read_back_as_written CommentExamples.ex_c1 ∧ read_back_as_written odd_comment ∧ ¬ representable odd_comment ∧ ¬ read_back_as_written CommentExamples.ex_c ∧
  into_opt_comment default_order odd_comment = Some (s2l ":t: text" ++ newline :: s2l "k:" ++ newline :: s2l "k: ").
Proof.
  split; [exact (representable_exact _ ex_c1_representable)|]. split; [exact (proj1 odd_read_back)|]. split; [exact (proj2 odd_read_back)|]. split; [|by_compute].
  intros H. apply (exact_round_trip default_order) in H; [|exact default_order_ok]. revert H. by_compute.
Qed.

(** C61: exactly these transactions are read back from the ledger they are put in. *)
Theorem C61_exact ho tps : hash_order_ok ho →
  from_ledger (into_ledger ho tps) = Ok tps ↔ ∀ tp, tp ∈ tps → held_apart tp ∧ all_read_back tp.
Proof. exact (ledger_exact ho tps). Qed.
Print Assumptions C61_exact.
Example C61_exact_ex : ∀ tp, tp ∈ ex_s0 → held_apart tp ∧ all_read_back tp.
Proof.
  apply (proj1 (C61_exact default_order ex_s0 default_order_ok)). refine (c61_back default_order ex_s0 default_order_ok ex_s0_parsed _).
  apply writable_compute. by_compute.
Qed.

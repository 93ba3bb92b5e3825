(** Exactly which transactions are read back from a ledger as they were (C61), and
    what C31_exact says beside C31. *)
From Verif Require Import MergeClaims.
From Verif Require Import Base Types SpecBase BaseProofs StrProofs CommentModel MergeModel CmdModel CommentClaims CommentTextClaims CommentLaws CommentExamples
  CmdClaims CmdProofs CmdIdem LayoutClaims RereadClaims RewriteClaims ExactClaims Exact MergeExamples CmdExamples.
Local Open Scope nat_scope.

Lemma fmap_fixed {A} (f : A → A) (l : list A) : f <$> l = l ↔ ∀ x, x ∈ l → f x = x.
Proof.
  induction l as [|x l IH]; csimpl.
  - split; [|done]. intros _ x Hx. by apply elem_of_nil in Hx.
  - split.
    + intros H y Hy. injection H as Hx Hl. apply elem_of_cons in Hy as [->|Hy]; [done|]. by apply IH.
    + intros H. f_equal; [apply H; left|]. apply IH. intros y Hy. apply H. by right.
Qed.
Lemma posting_exact ho p : hash_order_ok ho → posting_internal_of (posting_of ho p) = p ↔ p_comment (pi_raw p) = None ∧ read_back_as_written (pi_comment p).
Proof.
  intros Hho. rewrite <- (exact_round_trip ho) by done. destruct p as [[] c]. unfold posting_internal_of, posting_of, set_pcomment. cbn. split.
  - intros H. injection H as H1 H2. done.
  - intros [-> ->]. done.
Qed.
Lemma trn_exact ho tp : hash_order_ok ho → transaction_postings_of (transaction_of_postings ho tp) = tp ↔ held_apart tp ∧ all_read_back tp.
Proof.
  intros Hho. unfold held_apart, all_read_back. destruct tp as [[raw c] ps]. cbn [tp_trn tp_posts ti_raw ti_comment].
  assert (transaction_postings_of (transaction_of_postings ho (TP (TI raw c) ps)) = TP (TI raw c) ps ↔
    (t_comment raw = None ∧ t_postings raw = [] ∧ from_opt_comment (into_opt_comment ho c) = c) ∧ ((λ p, posting_internal_of (posting_of ho p)) <$> ps) = ps) as ->.
  { unfold transaction_postings_of, transaction_of_postings, transaction_internal_of, transaction_of, set_tcomment, set_tpostings. cbn.
    rewrite <- list_fmap_compose. change (compose posting_internal_of (posting_of ho)) with (λ p, posting_internal_of (posting_of ho p)).
    destruct raw; cbn. split.
    - intros H. injection H as H1 H2 H3 H4. done.
    - intros [(-> & -> & ->) ->]. done. }
  rewrite exact_round_trip by done. rewrite fmap_fixed. split.
  - intros [(H1 & H2 & H3) H4]. split_and!; [done|done|..|done|]; intros p Hp; by apply (posting_exact ho p Hho), H4.
  - intros [(H1 & H2 & H3) (H4 & H5)]. split_and!; [done..|]. intros p Hp. apply posting_exact; [done|]. split; [by apply H3|by apply H5].
Qed.
Lemma ledger_exact ho tps : hash_order_ok ho → from_ledger (into_ledger ho tps) = Ok tps ↔ ∀ tp, tp ∈ tps → held_apart tp ∧ all_read_back tp.
Proof.
  intros Hho. rewrite from_ledger_iff. unfold into_ledger. rewrite ledger_trns_of, <- list_fmap_compose.
  change (compose transaction_postings_of (transaction_of_postings ho)) with (λ tp, transaction_postings_of (transaction_of_postings ho tp)). split.
  - intros [_ H] tp Htp. apply (trn_exact ho); [done|]. symmetry in H. apply (proj1 (fmap_fixed _ _) H tp Htp).
  - intros H. split; [apply ledger_supported|]. symmetry. apply fmap_fixed. intros tp Htp. apply trn_exact; [done|by apply H].
Qed.

Lemma representable_exact c : representable c → read_back_as_written c.
Proof. intros H. apply (exact_round_trip default_order); [exact default_order_ok|]. apply roundtrip; [exact default_order_ok|done]. Qed.
(** A comment that is read back although a value is empty. *)
Definition odd_comment : comment := Comment [s2l "text"; s2l "k:"] {[ s2l "t" ]} {[ s2l "k" := [] ]}.
Lemma odd_read_back : read_back_as_written odd_comment ∧ ¬ representable odd_comment.
Proof.
  split.
  - apply (exact_round_trip default_order); [exact default_order_ok|]. by_compute.
  - intros H. pose proof (rp_values _ H (s2l "k") [] ltac:(vm_compute; reflexivity)) as [E _]. done.
Qed.

(** The same payments from two sources (C112). *)
From Verif Require Import Base Types CommentModel MergeModel SpecBase MergeSpec MergeClaims MergeExamples CmdClaims
  PiecesClaims TwinClaims Twin TwinExamples.
Local Open Scope nat_scope.

(** C112: two sources that share no fingerprint but agree on date and amounts are
    merged without anything handed back, and each payment is in the journal once; *)
Theorem C112_joined w extra ho ho1 ho2 :
  two_sources w extra → hash_order_ok ho → hash_order_ok ho1 → hash_order_ok ho2 →
  ∃ m1 m, merge ho1 merger_new (first_source w) = (m1, Ok []) ∧
    merge ho2 m1 (second_source w extra) = (m, Ok []) ∧
    build ho m = Ok (stable_sort (by_key tp_date) ((joined <$> w) ++ extra)).
Proof.
  intros Hts Hho Hho1 Hho2.
  destruct (two_sources_joined w extra Hts ho ho1 ho2 Hho Hho1 Hho2) as (m1 & m & H1 & H2 & H3 & _).
  exact (ex_intro _ m1 (ex_intro _ m (conj H1 (conj H2 H3)))).
Qed.
Print Assumptions C112_joined.
(** there it has the header of the first source, the fingerprints of both, and the
    account of whichever knows it; *)
Theorem C112_both w extra tp tp' qs : two_sources w extra → (tp, Some (tp', qs)) ∈ w →
  tp_trn (joined (tp, Some (tp', qs))) = tp_trn tp ∧ length qs = length (tp_posts tp) ∧
  length (tp_posts (joined (tp, Some (tp', qs)))) = length (tp_posts tp) ∧
  ∀ b p q, tp_posts tp !! b = Some p → qs !! b = Some q →
    ∃ r, tp_posts (joined (tp, Some (tp', qs))) !! b = Some r ∧
      (∀ f, has_fp r f ↔ has_fp p f ∨ has_fp q f) ∧
      (unknown_account r ↔ unknown_account p ∧ unknown_account q) ∧
      (¬ unknown_account p → p_account (pi_raw r) = p_account (pi_raw p)) ∧
      (unknown_account p → ¬ unknown_account q → p_account (pi_raw r) = p_account (pi_raw q)).
Proof. exact (joined_posts w extra tp tp' qs). Qed.
Print Assumptions C112_both.
(** and the second source may come in any pieces and any order. *)
Theorem C112_pieces w extra gs ho1 ho2 :
  two_sources w extra → extra_apart w extra → mjoin gs ≡ₚ second_source w extra →
  hash_order_ok ho1 → hash_order_ok ho2 →
  ∃ m1 m2, merge ho1 merger_new (first_source w) = (m1, Ok []) ∧ merges ho2 m1 gs [] m2 ∧
    ∀ hb out, hash_order_ok hb → build hb m2 = Ok out →
      same_up_to_order (stable_sort (by_key tp_date) ((joined <$> w) ++ extra)) out.
Proof. exact (two_sources_pieces w extra gs ho1 ho2). Qed.
Print Assumptions C112_pieces.
(** A transfer between two accounts, reported by both banks. *)
Example C112_ex : two_sources tw_w [tw_b2] ∧ extra_apart tw_w [tw_b2] ∧
  mjoin [[tw_b2]; [tw_b1]] ≡ₚ second_source tw_w [tw_b2] ∧
  (λ p, (p_account (pi_raw p), elements (tags (pi_comment p)))) <$> tp_posts (joined (tw_a1, Some (tw_b1, [tw_q2; tw_q1]))) =
    [(tw_bank_a, [s2l "fp-a1"; s2l "fp-b2"]); (tw_bank_b, [s2l "fp-b1"; s2l "fp-a2"])].
Proof. exact (conj tw_ok (conj tw_extra_apart (conj (perm_swap _ _ _) tw_result))). Qed.
(** That counterparts can be told apart is needed: two payments of one amount on
    one day are handed back. *)
Theorem C112_apart_needed : ∃ m1 m2 un, merge default_order merger_new [tw_c1; tw_c2] = (m1, Ok []) ∧
  merge default_order m1 [tw_d1; tw_d2] = (m2, Ok un) ∧ length un = 2 ∧
  rmap length (build default_order m2) = Ok 2.
Proof. exact tw_needed. Qed.
Print Assumptions C112_apart_needed.

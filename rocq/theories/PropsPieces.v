(** How a set is cut into pieces, and in which order its transactions are (C110). *)
From Verif Require Import Base Types CommentModel MergeModel SpecBase MergeSpec MergeClaims MergeExamples CmdClaims
  PiecesClaims Pieces PiecesOrder PiecesExamples.
Local Open Scope nat_scope.

(** C110: a set that is merged as a whole may as well be merged piece by piece: the
    state reached is the same; *)
Theorem C110_pieces m j ho ho' gs m' :
  reachable m → represents m j → hash_order_ok ho → hash_order_ok ho' →
  merge ho m (mjoin gs) = (m', Ok []) → told_apart j (mjoin gs) →
  merges ho' m gs [] m'.
Proof. exact (pieces ho ho' gs m j m'). Qed.
Print Assumptions C110_pieces.
Example C110_pieces_ex : reachable ex_m0 ∧ represents ex_m0 ex_j0 ∧
  merge default_order ex_m0 (mjoin pc_groups) = ((merge default_order ex_m0 (mjoin pc_groups)).1, Ok []) ∧
  told_apart ex_j0 (mjoin pc_groups).
Proof. exact (conj ex_m0_reachable (conj ex_m0_represents (conj pc_whole' pc_apart'))). Qed.

(** the order of the transactions in a set decides nothing but order; *)
Theorem C110_order m j ho ho' tps tps' m1 un :
  reachable m → represents m j → hash_order_ok ho → hash_order_ok ho' →
  tps ≡ₚ tps' → merge ho m tps = (m1, Ok un) →
  ∃ m2 un2, merge ho' m tps' = (m2, Ok un2) ∧
    (∃ un2', un2 ≡ₚ un2' ∧ Forall2 equal_but_candidates un un2') ∧
    (∀ hb hb' out out', hash_order_ok hb → hash_order_ok hb' →
       build hb m1 = Ok out → build hb' m2 = Ok out' → same_up_to_order out out').
Proof. exact (set_order m j ho ho' tps tps' m1 un). Qed.
Print Assumptions C110_order.

(** so that a set may be cut into pieces in any way and the pieces merged in any
    order. *)
Theorem C110_regrouped m j ho ho' tps gs m1 :
  reachable m → represents m j → hash_order_ok ho → hash_order_ok ho' →
  merge ho m tps = (m1, Ok []) → told_apart j tps → mjoin gs ≡ₚ tps →
  ∃ m2, merges ho' m gs [] m2 ∧
    ∀ hb hb' out out', hash_order_ok hb → hash_order_ok hb' →
      build hb m1 = Ok out → build hb' m2 = Ok out' → same_up_to_order out out'.
Proof. exact (regrouped m j ho ho' tps gs m1). Qed.
Print Assumptions C110_regrouped.
Example C110_ex : reachable ex_m0 ∧ represents ex_m0 ex_j0 ∧
  merge default_order ex_m0 ex_s1 = ((merge default_order ex_m0 ex_s1).1, Ok []) ∧
  told_apart ex_j0 ex_s1 ∧ mjoin pc_groups ≡ₚ ex_s1 ∧ mjoin pc_groups ≠ ex_s1.
Proof.
  exact (conj ex_m0_reachable (conj ex_m0_represents (conj pc_whole (conj pc_apart (conj pc_perm
    pc_differ))))).
Qed.
(** The condition is needed: postings that look alike are kept apart inside one
    set, and taken for one another in two. *)
Theorem C110_apart_needed : mistaken journal_new pc_a pc_b ∧
  ∃ m1 m2, merge default_order merger_new [pc_a; pc_b] = (m1, Ok []) ∧
  merges default_order merger_new [[pc_a]; [pc_b]] [] m2 ∧
  rmap (fmap (λ tp, length (tp_posts tp))) (build default_order m1) = Ok [1; 1] ∧
  rmap (fmap (λ tp, length (tp_posts tp))) (build default_order m2) = Ok [1].
Proof. exact (conj pc_alike pc_needed). Qed.
Print Assumptions C110_apart_needed.

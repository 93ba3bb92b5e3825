(** Transactions handed back, edited and merged again (C93); inputs the journal
    already contains (C94). *)
From Verif Require Import Base Types CommentModel MergeModel SpecBase BaseProofs MergeSpec MergeClaims MergeLemmas
  MergeLaws MergeExamples CommentExamples ResolveClaims MergeResolve ResolveExamples.
Local Open Scope nat_scope.

(** C93: the fingerprint the user keeps is that of one of the postings the handed
    back posting could be merged into, and this is where it goes, whatever has been
    merged in between; *)
Theorem C93_choice m j ho tps m1 un h j2 tp u f r :
  reachable m → represents m j → hash_order_ok ho → merge ho m tps = (m1, Ok un) →
  tp ∈ un → u ∈ tp_posts tp → resolves f u r →
  Forall (λ s, hash_order_ok s.1) h → unrelated h u → represents (after m1 h) j2 →
  ∃ i x, j_posts j !! i = Some x ∧ has_fp (jp_post x) f ∧ soft_match_at j (tp_date tp) u i ∧
    selects j2 (tp_date tp) r i.
Proof. exact (resolved_choice m j ho tps m1 un h j2 tp u f r). Qed.
Print Assumptions C93_choice.
(** the edited transaction is merged, each resolved posting into the posting
    chosen, and the original is recognised from then on. *)
Theorem C93_merged m j ho tps m1 un h j2 tp tr ho' :
  reachable m → represents m j → hash_order_ok ho → merge ho m tps = (m1, Ok un) →
  Forall (λ s, hash_order_ok s.1) h → represents (after m1 h) j2 → hash_order_ok ho' →
  tp ∈ un → tp_posts tp ≠ [] → resolution tp tr → (∀ u, u ∈ tp_posts tp → unrelated h u) →
  (* the other postings are not ambiguous now; *)
  (∀ u, u ∈ tp_posts tp → no_candidates u → ¬ ambiguous j2 (tp_date tp) u) →
  (* the choices are different postings of one transaction *)
  (∀ b b' r r' i i' x x', tp_posts tr !! b = Some r → tp_posts tr !! b' = Some r' →
     selects j2 (tp_date tp) r i → selects j2 (tp_date tp) r' i' →
     j_posts j2 !! i = Some x → j_posts j2 !! i' = Some x' → jp_trn x = jp_trn x' ∧ (i = i' → b = b')) →
  ∃ m3 j3, merge ho' (after m1 h) [tr] = (m3, Ok []) ∧ represents m3 j3 ∧
    (∀ b u r f, tp_posts tp !! b = Some u → tp_posts tr !! b = Some r → resolves f u r →
       ∃ i x, j_posts j2 !! i = Some x ∧ has_fp (jp_post x) f ∧
         j_posts j3 !! i = Some (JP (jp_trn x) (jp_date x) (merge_posting (jp_post x) r))) ∧
    (∀ orig ho'', orig ∈ tps → equal_but_candidates orig tp → hash_order_ok ho'' →
       merge ho'' m3 [orig] = (m3, Ok [])).
Proof.
  exact (λ Hr Hj Hho Hm Hh Hj2 Hho' Htp Hne Hres Hun Hamb Hone,
    resolved_merges m j Hr Hj ho Hho tps m1 un Hm h Hh j2 Hj2 tp tr Htp Hne Hres Hun Hamb Hone ho' Hho').
Qed.
Print Assumptions C93_merged.
Example C93_ex : merge default_order ex_m0 rs_in = (rs_m1, Ok [rs_un]) ∧ represents (after rs_m1 rs_h) rs_j2 ∧
  resolves (s2l "fp-b2") rs_u1 rs_r1 ∧ resolution rs_un rs_edited ∧ (∀ u, u ∈ tp_posts rs_un → unrelated rs_h u) ∧
  (∀ u, u ∈ tp_posts rs_un → no_candidates u → ¬ ambiguous rs_j2 (tp_date rs_un) u) ∧
  (∀ b b' r r' i i' x x', tp_posts rs_edited !! b = Some r → tp_posts rs_edited !! b' = Some r' →
     selects rs_j2 (tp_date rs_un) r i → selects rs_j2 (tp_date rs_un) r' i' →
     j_posts rs_j2 !! i = Some x → j_posts rs_j2 !! i' = Some x' → jp_trn x = jp_trn x' ∧ (i = i' → b = b')) ∧
  rmap (fmap (λ tp, (t_description (ti_raw (tp_trn tp)), length (tp_posts tp))))
    (build default_order (merge default_order (after rs_m1 rs_h) [rs_edited]).1) =
  Ok [(s2l "shop", 2); (s2l "market", 3); (s2l "cafe", 3); (s2l "bus", 1)].
Proof.
  exact (conj rs_merge (conj rs_represents (conj rs_resolves (conj rs_resolution (conj rs_unrelated
    (conj rs_unambiguous (conj rs_one rs_result))))))).
Qed.

(** C94 *)
Theorem C94_contained_changes_nothing m j ho tps (trn : nat → nat) (loc : nat → nat → nat) :
  reachable m → represents m j → hash_order_ok ho →
  (∀ tp, tp ∈ tps → tp_posts tp ≠ []) → (∀ p, p ∈ all_posts tps → mergeable p) →
  (* posting [b] of transaction [a] is contained in posting [loc a b] of transaction [trn a], *)
  (∀ a b tp p, tps !! a = Some tp → tp_posts tp !! b = Some p →
     ∃ x, j_posts j !! loc a b = Some x ∧ jp_trn x = trn a ∧ has_all (jp_post x) p) →
  (* each in another one *)
  (∀ a b a' b' tp tp', tps !! a = Some tp → b < length (tp_posts tp) →
     tps !! a' = Some tp' → b' < length (tp_posts tp') → loc a b = loc a' b' → a = a' ∧ b = b') →
  merge ho m tps = (m, Ok []).
Proof.
  exact (λ Hr Hj Hho Hne Hmg Hloc Hinj, contained_merge m j Hr Hj tps trn loc Hne Hmg Hloc Hinj ho Hho).
Qed.
Print Assumptions C94_contained_changes_nothing.
Example C94_ex : reachable ex_m0 ∧ represents ex_m0 ex_j0 ∧ mergeable ct_p ∧
  (∃ x, j_posts ex_j0 !! 2 = Some x ∧ jp_trn x = 1 ∧ has_all (jp_post x) ct_p) ∧ tp_posts ct_tp = [ct_p] ∧ ct_tp ∉ ex_s0.
Proof.
  split_and!; [exact ex_m0_reachable|exact ex_m0_represents|exact ct_mergeable|exact ct_contained|done|].
  intros H. apply (elem_of_list_fmap_1 (λ tp, t_description (ti_raw (tp_trn tp)))) in H.
  apply (bool_decide_eq_true_2 _) in H. revert H. vm_compute. discriminate.
Qed.

(** The properties of merging (C01-C24).  [reachable m]: [m] is any merger a user
    can obtain, by any calls of [merge].  [represents m j]: the transactions and
    postings in [m] are those of [j]; see [merger_denotes_journal]. *)
From Verif Require Import Base Types CommentModel MergeModel SpecBase BaseProofs MergeSpec MergeClaims
  MergeProofs MergePending MergeApply MergeBuild MergeClosed MergeLemmas MergePlaces MergeLaws MergeLaws2
  MergeLaws3 MergeLaws4 MergeReplay MergeLaws5 MergeExamples PropsMergeProofs.
From Coq Require Import QArith.
Local Open Scope nat_scope.

(** Every reachable merger represents exactly one journal, and [build] returns
    its transactions in date order. *)
Theorem merger_denotes_journal m :
  reachable m → ∃ j, represents m j ∧ (∀ j', represents m j' → j' = j) ∧
    ∀ ho, hash_order_ok ho → build ho m = Ok (stable_sort (by_key tp_date) (journal_trns j)).
Proof. exact (denotes m). Qed.
Print Assumptions merger_denotes_journal.
Example merger_denotes_journal_ex : reachable ex_m0 ∧ represents ex_m0 ex_j0 ∧ length (j_posts ex_j0) = 6.
Proof. split; [exact ex_m0_reachable|]. split; [exact ex_m0_represents|]. by_compute. Qed.

(** C01 *)
Theorem C01_failed_merge_changes_nothing m ho tps m' e :
  reachable m → hash_order_ok ho → merge ho m tps = (m', Err e) → m' = m.
Proof. exact (c01 m ho tps m' e). Qed.
Print Assumptions C01_failed_merge_changes_nothing.
Example C01_ex : (merge default_order ex_m0 [ex_u1; ex_u2; ex_u1]).2 = Err EDupFingerprint.
Proof. by_compute. Qed.

(** C02 *)
Theorem C02_no_panic m ho tps :
  reachable m → hash_order_ok ho → (merge ho m tps).2 ≠ Panic ∧ ∃ out, build ho m = Ok out.
Proof. exact (c02 m ho tps). Qed.
Print Assumptions C02_no_panic.
Example C02_ex : (merge default_order ex_m0 ex_s1).2 = Ok [] ∧ reachable (merge default_order ex_m0 ex_s1).1.
Proof. split; [by_compute|]. constructor; [exact ex_m0_reachable|exact default_order_ok]. Qed.

(** C03: the four outcomes of a lookup exclude each other and cover everything; *)
Theorem C03_lookup_outcomes j d p :
  (conflicting j p ∧ (∀ i, ¬ selects j d p i) ∧ ¬ matches_nothing j d p ∧ ¬ ambiguous j d p) ∨
  (¬ conflicting j p ∧ (∃ i, selects j d p i ∧ ∀ k, selects j d p k → k = i) ∧
   ¬ matches_nothing j d p ∧ ¬ ambiguous j d p) ∨
  (¬ conflicting j p ∧ (∀ i, ¬ selects j d p i) ∧ matches_nothing j d p ∧ ¬ ambiguous j d p) ∨
  (¬ conflicting j p ∧ (∀ i, ¬ selects j d p i) ∧ ¬ matches_nothing j d p ∧ ambiguous j d p).
Proof. exact (journal_lookup_once j d p). Qed.
Print Assumptions C03_lookup_outcomes.
(** the posting selected is the one merged into, and a posting that matches
    nothing becomes a new posting; *)
Theorem C03_lookup_decides m j ho tps m' un j' tp p :
  reachable m → represents m j → hash_order_ok ho → merge ho m tps = (m', Ok un) → represents m' j' →
  tp ∈ tps → to_merge j tp → p ∈ tp_posts tp →
  (∃ i x, selects j (tp_date tp) p i ∧ j_posts j !! i = Some x ∧
     j_posts j' !! i = Some (JP (jp_trn x) (jp_date x) (merge_posting (jp_post x) p))) ∨
  (matches_nothing j (tp_date tp) p ∧
     ∃ i t, length (j_posts j) ≤ i ∧ j_posts j' !! i = Some (JP t (tp_date tp) p)).
Proof. exact (λ Hr Hj, lookup_observed m j Hr Hj ho tps m' un j' tp p). Qed.
Print Assumptions C03_lookup_decides.
(** several fingerprint matches are an error. *)
Theorem C03_conflict_fails m j ho tps p :
  reachable m → represents m j → hash_order_ok ho → p ∈ all_posts tps → conflicting j p →
  ∃ e, merge ho m tps = (m, Err e).
Proof. exact (c03_conflict m j ho tps p). Qed.
Print Assumptions C03_conflict_fails.
Example C03_ex :
  selects ex_j0 day1 (ex_post food 500 [s2l "fp-a2"]) 3 ∧
  selects ex_j0 day2 (ex_post bank (-300) [s2l "fp-z3"]) 0 ∧
  matches_nothing ex_j0 day2 (ex_post bank (-250) [s2l "fp-z5"]) ∧
  ambiguous ex_j0 day1 (ex_post food 500 [s2l "fp-y1"]) ∧
  conflicting ex_j0 (ex_post food 500 [s2l "fp-a2"; s2l "fp-b2"]).
Proof.
  rewrite !selects_spec, matches_nothing_spec, ambiguous_is, conflicting_spec.
  split_and!; try by_compute.
Qed.

(** C04 *)
Theorem C04_fingerprints_unique m ho out :
  reachable m → hash_order_ok ho → build ho m = Ok out → fps_distinct (all_posts out).
Proof. exact (c04 m ho out). Qed.
Print Assumptions C04_fingerprints_unique.
Example C04_ex : build default_order ex_m0 = Ok [ex_t1; ex_t2; ex_t3].
Proof. by_compute. Qed.

(** C05: [lo] decides which transactions are left out, [loc a b] is the place of
    posting [b] of transaction [a] in the built journal. *)
Theorem C05_nothing_lost m j ho ho1 ho2 tps m' un out out' :
  reachable m → represents m j →
  hash_order_ok ho → hash_order_ok ho1 → hash_order_ok ho2 →
  merge ho m tps = (m', Ok un) → build ho1 m = Ok out → build ho2 m' = Ok out' →
  ∃ (lo : transaction_postings → bool) (loc : nat → nat → nat * nat)
    (nothing : transaction_postings → posting_internal → bool),
    (∀ tp, lo tp = true ↔ ¬ to_merge j tp) ∧
    (∀ tp p, nothing tp p = true ↔ matches_nothing j (tp_date tp) p) ∧
    Forall2 returned_unmerged (filter (λ tp, lo tp = true) tps) un ∧
    (∀ a b tp p, tps !! a = Some tp → lo tp = false → tp_posts tp !! b = Some p →
       ∃ tp' q, out' !! (loc a b).1 = Some tp' ∧ tp_posts tp' !! (loc a b).2 = Some q ∧
         contains_source q p ∧ (nothing tp p = true → q = p)) ∧
    (∀ a b a' b' tp tp' p p',
       tps !! a = Some tp → lo tp = false → tp_posts tp !! b = Some p →
       tps !! a' = Some tp' → lo tp' = false → tp_posts tp' !! b' = Some p' →
       (a = a' → (loc a b).1 = (loc a' b').1) ∧ (loc a b = loc a' b' → a = a' ∧ b = b')) ∧
    length (all_posts out') = length (all_posts out) +
      length (filter (λ tp, lo tp = false) tps ≫= λ tp, filter (λ p, nothing tp p = true) (tp_posts tp)).
Proof. exact (λ Hr Hj, nothing_lost m j Hr Hj ho ho1 ho2 tps m' un out out'). Qed.
Print Assumptions C05_nothing_lost.
Example C05_ex : rmap length (build default_order (merge default_order ex_m0 (ex_u4 :: ex_s1)).1) = Ok 4 ∧
  rmap length (merge default_order ex_m0 (ex_u4 :: ex_s1)).2 = Ok 1 ∧
  rmap (length ∘ all_posts) (build default_order (merge default_order ex_m0 (ex_u4 :: ex_s1)).1) = Ok 8.
Proof. by_compute. Qed.

(** C06 *)
Theorem C06_remerge_changes_nothing m ho ho' tps m' :
  reachable m → hash_order_ok ho → hash_order_ok ho' →
  merge ho m tps = (m', Ok []) → merge ho' m' tps = (m', Ok []).
Proof. exact (c06 m ho ho' tps m'). Qed.
Print Assumptions C06_remerge_changes_nothing.
Example C06_ex : (merge default_order ex_m0 ex_s1).2 = Ok [].
Proof. by_compute. Qed.

(** C07 *)
Theorem C07_first_merge_sorts_by_date ho ho' tps :
  hash_order_ok ho → hash_order_ok ho' →
  (∀ p, p ∈ all_posts tps → mergeable p) → fps_distinct (all_posts tps) →
  ∃ m', merge ho merger_new tps = (m', Ok (filter (λ tp, tp_posts tp = []) tps)) ∧
        build ho' m' = Ok (stable_sort (by_key tp_date) (filter (λ tp, tp_posts tp ≠ []) tps)).
Proof. exact (from_empty ho ho' tps). Qed.
Print Assumptions C07_first_merge_sorts_by_date.
Example C07_ex : (∀ p, p ∈ all_posts ex_s0 → mergeable p) ∧ fps_distinct (all_posts ex_s0) ∧
  stable_sort (by_key tp_date) ex_s0 = [ex_t1; ex_t2; ex_t3].
Proof.
  assert (acceptable journal_new ex_s0) as [H1 H2 _ _ _].
  { apply (merge_ok_iff merger_new journal_new reach_new rep_new default_order); [exact default_order_ok|].
    eexists _, []. apply merge_eq. by_compute. }
  split_and!; [done..|by_compute].
Qed.

(** C08 *)
Theorem C08_date_order m ho out :
  reachable m → hash_order_ok ho → build ho m = Ok out →
  StronglySorted (λ a b, date_leb (tp_date a) (tp_date b) = true) out.
Proof. exact (c08_sorted m ho out). Qed.
Print Assumptions C08_date_order.
(** On each date, the transactions there were before come first, in the same
    order, then the input transactions that became new transactions, in input
    order. *)
Theorem C08_stable m j ho ho1 ho2 tps m' un out out' :
  reachable m → represents m j → hash_order_ok ho → hash_order_ok ho1 → hash_order_ok ho2 →
  merge ho m tps = (m', Ok un) → build ho1 m = Ok out → build ho2 m' = Ok out' →
  ∃ news : list transaction_postings, sublist news tps ∧ (∀ tp, tp ∈ news ↔ tp ∈ tps ∧ becomes_new j tp) ∧
    ∀ d, tp_trn <$> filter (λ tp, tp_date tp = d) out' =
         (tp_trn <$> filter (λ tp, tp_date tp = d) out) ++ (tp_trn <$> filter (λ tp, tp_date tp = d) news).
Proof. exact (λ Hr Hj, built_stable m j Hr Hj ho ho1 ho2 tps m' un out out'). Qed.
Print Assumptions C08_stable.
Example C08_ex :
  rmap (fmap (λ tp, t_description (ti_raw (tp_trn tp)))) (build default_order (merge default_order ex_m0 ex_s1).1) =
  Ok [s2l "shop"; s2l "market"; s2l "cafe"; s2l "bus"].
Proof. by_compute. Qed.

(** C09 *)
Theorem C09_output_remerges_to_itself m ho ho1 ho2 out :
  reachable m → hash_order_ok ho → hash_order_ok ho1 → hash_order_ok ho2 →
  build ho m = Ok out → ∃ m', merge ho1 merger_new out = (m', Ok []) ∧ build ho2 m' = Ok out.
Proof. exact (rebuild m ho ho1 ho2 out). Qed.
Print Assumptions C09_output_remerges_to_itself.
Example C09_ex : build default_order ex_m0 = Ok [ex_t1; ex_t2; ex_t3] ∧ [ex_t1; ex_t2; ex_t3] ≠ ex_s0.
Proof. by_compute. Qed.

(** C10 *)
Theorem C10_existing_data_only_refined m ho ho1 ho2 tps m' un out out' :
  reachable m → hash_order_ok ho → hash_order_ok ho1 → hash_order_ok ho2 →
  merge ho m tps = (m', Ok un) → build ho1 m = Ok out → build ho2 m' = Ok out' →
  ∃ out0, sublist out0 out' ∧ Forall2 trn_extends out out0.
Proof. exact (c10 m ho ho1 ho2 tps m' un out out'). Qed.
Print Assumptions C10_existing_data_only_refined.
Example C10_ex :
  rmap head (build default_order (merge default_order ex_m0 ex_s1).1) =
  Ok (Some (TP (tp_trn ex_t1)
    [ex_post bank (-500) [s2l "fp-a1"; s2l "fp-z1"]; ex_post food 500 [s2l "fp-a2"; s2l "groceries"]])).
Proof. by_compute. Qed.

(** C11 *)
Theorem C11_ambiguous_handed_back m j ho tps m' un :
  reachable m → represents m j → hash_order_ok ho → merge ho m tps = (m', Ok un) →
  ∃ lo : transaction_postings → bool, (∀ tp, lo tp = true ↔ ¬ to_merge j tp) ∧
    Forall2 (handed_back j) (filter (λ tp, lo tp = true) tps) un ∧
    merge ho m (filter (λ tp, lo tp = false) tps) = (m', Ok []).
Proof. exact (λ Hr Hj, handed_back_spec m j Hr Hj ho tps m' un). Qed.
Print Assumptions C11_ambiguous_handed_back.
Example C11_ex : (merge default_order ex_m0 (ex_u4 :: ex_s1)).2 =
  Ok [ex_tp day1 (s2l "shop?")
        [ex_post food 500 [s2l "fp-y1"; s2l "candidate-fp-a2"; s2l "candidate-fp-b2"];
         ex_post bank (-501) [s2l "fp-y2"]]].
Proof. by_compute. Qed.

(** C12 *)
Theorem C12_duplicate_fingerprints_rejected m ho tps :
  reachable m → hash_order_ok ho → ¬ fps_distinct (all_posts tps) → ∃ e, merge ho m tps = (m, Err e).
Proof. exact (c12 m ho tps). Qed.
Print Assumptions C12_duplicate_fingerprints_rejected.
Example C12_ex : ¬ fps_distinct (all_posts [ex_u1; ex_u2; ex_u1]).
Proof.
  intros H. assert (0 = 4) as E; [|done].
  apply (H 0 4 (ex_post bank (-500) [s2l "fp-a1"; s2l "fp-z1"]) (ex_post bank (-500) [s2l "fp-a1"; s2l "fp-z1"]));
    [done..|].
  exists (s2l "fp-a1"). split; (split; [exists (s2l "a1"); done|unfold has_tag; by_compute]).
Qed.

(** C13 *)
Theorem C13_only_mergeable_accepted m ho tps p :
  reachable m → hash_order_ok ho → p ∈ all_posts tps → ¬ mergeable p → ∃ e, merge ho m tps = (m, Err e).
Proof. exact (c13 m ho tps p). Qed.
Print Assumptions C13_only_mergeable_accepted.
Example C13_ex :
  ¬ mergeable (ex_post bank 1 [s2l "groceries"]) ∧ ¬ mergeable (ex_post bank 1 [s2l "fp-a"; s2l "candidate-fp-b"]).
Proof.
  split.
  - intros [(f & [s ->] & Ht) _]. unfold has_tag in Ht. simpl in Ht. set_solver.
  - intros [_ H]. apply (H (s2l "candidate-fp-b")); [unfold has_tag; by_compute|]. exists (s2l "fp-b"). done.
Qed.

(** C14 *)
Theorem C14_one_source_per_destination m j ho tps a b a' b' tp tp' p p' i :
  reachable m → represents m j → hash_order_ok ho →
  tps !! a = Some tp → tp_posts tp !! b = Some p → tps !! a' = Some tp' → tp_posts tp' !! b' = Some p' →
  to_merge j tp → to_merge j tp' → selects j (tp_date tp) p i → selects j (tp_date tp') p' i →
  (a, b) ≠ (a', b') → ∃ e, merge ho m tps = (m, Err e).
Proof. exact (c14 m j ho tps a b a' b' tp tp' p p' i). Qed.
Print Assumptions C14_one_source_per_destination.
Example C14_ex :
  let p := ex_post bank (-300) [s2l "fp-z3"] in let p' := ex_post bank (-300) [s2l "fp-z4"] in
  selects ex_j0 day2 p 0 ∧ selects ex_j0 day2 p' 0 ∧
  (merge default_order ex_m0 [ex_tp day2 [] [p]; ex_tp day2 [] [p']]).2 = Err ESameDestination.
Proof. cbv zeta. rewrite !selects_spec. split_and!; by_compute. Qed.

(** C15 *)
Theorem C15_transactions_not_split m j ho tps tp p q i k x y :
  reachable m → represents m j → hash_order_ok ho →
  tp ∈ tps → to_merge j tp → p ∈ tp_posts tp → q ∈ tp_posts tp →
  selects j (tp_date tp) p i → selects j (tp_date tp) q k →
  j_posts j !! i = Some x → j_posts j !! k = Some y → jp_trn x ≠ jp_trn y →
  ∃ e, merge ho m tps = (m, Err e).
Proof. exact (c15 m j ho tps tp p q i k x y). Qed.
Print Assumptions C15_transactions_not_split.
Example C15_ex :
  (merge default_order ex_m0 [ex_tp day1 [] [ex_post bank (-500) [s2l "fp-a1"]; ex_post food 500 [s2l "fp-b2"]]]).2
  = Err EManyTransactions.
Proof. by_compute. Qed.

(** C16: see also [C03_lookup_decides], where the lookups of all transactions of a
    set are made in the journal before the call. *)
Theorem C16_lookalikes_stay_separate m j ho ho1 ho2 tps m' un out out' :
  reachable m → represents m j → hash_order_ok ho → hash_order_ok ho1 → hash_order_ok ho2 →
  (∀ tp p, tp ∈ tps → p ∈ tp_posts tp → matches_nothing j (tp_date tp) p) →
  merge ho m tps = (m', Ok un) → build ho1 m = Ok out → build ho2 m' = Ok out' →
  out' = stable_sort (by_key tp_date) (out ++ filter (λ tp, tp_posts tp ≠ []) tps) ∧
  un = filter (λ tp, tp_posts tp = []) tps.
Proof. exact (λ Hr Hj, independent m j Hr Hj ho ho1 ho2 tps m' un out out'). Qed.
Print Assumptions C16_lookalikes_stay_separate.
(** Merging two sets at once does with each what merging it alone does. *)
Theorem C16_sets_independent m j ho tps tps' m' un ho0 ho' out out' :
  reachable m → represents m j → hash_order_ok ho → hash_order_ok ho0 → hash_order_ok ho' →
  merge ho m (tps ++ tps') = (m', Ok un) → build ho0 m = Ok out → build ho' m' = Ok out' →
  ∃ m1 un1 out1 m2 un2 out2,
    merge ho m tps = (m1, Ok un1) ∧ build ho' m1 = Ok out1 ∧
    merge ho m tps' = (m2, Ok un2) ∧ build ho' m2 = Ok out2 ∧
    Forall2 equal_but_candidates un (un1 ++ un2) ∧
    length out' + length out = length out1 + length out2 ∧
    length (all_posts out') + length (all_posts out) = length (all_posts out1) + length (all_posts out2).
Proof. exact (λ Hr Hj, additive m j Hr Hj ho tps tps' m' un ho0 ho' out out'). Qed.
Print Assumptions C16_sets_independent.
Example C16_ex :
  let t n := ex_tp day2 (s2l "coffee") [ex_post food 250 [s2l "fp-k" ++ [n]]] in
  rmap (fmap tp_posts) (build default_order (merge default_order ex_m0 [t 65%N; t 66%N; t 67%N]).1) =
  Ok ((tp_posts <$> [ex_t1; ex_t2; ex_t3]) ++ (tp_posts <$> [t 65%N; t 66%N; t 67%N])).
Proof. by_compute. Qed.

(** C17 *)
Theorem C17_hash_order_irrelevant m ho ho' tps :
  reachable m → hash_order_ok ho → hash_order_ok ho' →
  (merge ho m tps).1 = (merge ho' m tps).1 ∧ build ho m = build ho' m ∧
  ((∃ un un', (merge ho m tps).2 = Ok un ∧ (merge ho' m tps).2 = Ok un' ∧ Forall2 equal_but_candidates un un') ∨
   (∃ e e', (merge ho m tps).2 = Err e ∧ (merge ho' m tps).2 = Err e')).
Proof. exact (c17 m ho ho' tps). Qed.
Print Assumptions C17_hash_order_irrelevant.
Example C17_ex : hash_order_ok (HashOrder (λ s, reverse (elements s)) (λ A m, reverse (map_to_list m))
  (λ A m, reverse (map_to_list m))).
Proof. split_and!; intros; apply reverse_Permutation. Qed.

(** C18 *)
Theorem C18_replay_reproduces runs m ho out :
  clean_run merger_new runs m → hash_order_ok ho → build ho m = Ok out →
  ∀ hos, length hos = S (length runs) → Forall hash_order_ok hos →
  ∃ m', clean_run merger_new (zip hos (out :: runs.*2)) m' ∧ ∀ ho', hash_order_ok ho' → build ho' m' = Ok out.
Proof. exact (replay_all runs m ho out). Qed.
Print Assumptions C18_replay_reproduces.
Example C18_ex :
  clean_run merger_new [(default_order, ex_s0); (default_order, ex_s1)] (merge default_order ex_m0 ex_s1).1.
Proof.
  econstructor; [exact default_order_ok|apply merge_eq; by_compute|]. change (merge _ _ ex_s0).1 with ex_m0.
  econstructor; [exact default_order_ok|apply merge_eq; by_compute|]. constructor.
Qed.

(** C19 does not hold: there is a merger whose journal has exactly one posting in
    a transaction dated like the input that soft matches the input posting, and
    none that shares a fingerprint; still the input becomes a new transaction. *)
Theorem C19_soft_match_uses_parent_date_refuted :
  ∃ m out tp p m' out',
    reachable m ∧ build default_order m = Ok out ∧ tp_posts tp = [p] ∧
    (∃ t q, out = [t] ∧ tp_date t = tp_date tp ∧ q ∈ tp_posts t ∧ soft_match q p ∧
       ∀ q', q' ∈ tp_posts t → ¬ share_fp q' p ∧ (soft_match q' p → q' = q)) ∧
    merge default_order m [tp] = (m', Ok []) ∧ build default_order m' = Ok out' ∧
    length out' = 2 ∧ length (all_posts out') = length (all_posts out) + 1.
Proof. exact c19_refuted. Qed.
Print Assumptions C19_soft_match_uses_parent_date_refuted.
(** Missing for C19: postings that join a transaction of another date.  What
    holds: a merger filled from one set records each posting under the date of its
    transaction, and so does any merger as long as each input transaction only
    joins transactions of its own date. *)
Theorem C19_soft_match_uses_parent_date_partial m j ho tps m' un j' :
  reachable m → represents m j → hash_order_ok ho → merge ho m tps = (m', Ok un) → represents m' j' →
  dates_agree j →
  (∀ tp p i x h, tp ∈ tps → to_merge j tp → p ∈ tp_posts tp → selects j (tp_date tp) p i →
     j_posts j !! i = Some x → j_trns j !! jp_trn x = Some h → t_date (ti_raw h) = tp_date tp) →
  dates_agree j'.
Proof. exact (λ Hr Hj, dates_kept m j Hr Hj ho tps m' un j'). Qed.
Print Assumptions C19_soft_match_uses_parent_date_partial.
Example C19_ex : dates_agree journal_new ∧ dates_agree ex_j0.
Proof. exact c19_example. Qed.

(** C20 *)
Theorem C20_empty_transactions_returned m ho tps m' un tp :
  reachable m → hash_order_ok ho → merge ho m tps = (m', Ok un) → tp ∈ tps → tp_posts tp = [] → tp ∈ un.
Proof. exact (c20_returned m ho tps m' un tp). Qed.
Print Assumptions C20_empty_transactions_returned.
Theorem C20_no_empty_transactions m ho out tp :
  reachable m → hash_order_ok ho → build ho m = Ok out → tp ∈ out → tp_posts tp ≠ [].
Proof. exact (c20_none m ho out tp). Qed.
Print Assumptions C20_no_empty_transactions.
Example C20_ex : (merge default_order ex_m0 [ex_u5; ex_u3]).2 = Ok [ex_u5].
Proof. by_compute. Qed.

(** C21: the documented rules, field by field. *)
Theorem C21_field_rules x p :
  let q := merge_posting x p in
  p_amount (pi_raw q) = p_amount (pi_raw x) ∧
  p_reality (pi_raw q) = p_reality (pi_raw x) ∧
  (* status: from none to any, from pending to cleared *)
  (p_status (pi_raw x) = None → p_status (pi_raw q) = p_status (pi_raw p)) ∧
  (p_status (pi_raw x) = Some Pending →
     p_status (pi_raw q) = if decide (p_status (pi_raw p) = Some Cleared) then Some Cleared else Some Pending) ∧
  (p_status (pi_raw x) = Some Cleared → p_status (pi_raw q) = Some Cleared) ∧
  (* balance: set if not set *)
  (p_balance (pi_raw x) = None → p_balance (pi_raw q) = p_balance (pi_raw p)) ∧
  (p_balance (pi_raw x) ≠ None → p_balance (pi_raw q) = p_balance (pi_raw x)) ∧
  (* account: replaced when unknown here and known there *)
  (unknown_account x → ¬ unknown_account p → p_account (pi_raw q) = p_account (pi_raw p)) ∧
  (¬ unknown_account x ∨ unknown_account p → p_account (pi_raw q) = p_account (pi_raw x)) ∧
  (unknown_account q ↔ unknown_account x ∧ unknown_account p) ∧
  (* other tags are united *)
  (∀ t, t ≠ s2l "unknown-account" → (has_tag q t ↔ has_tag x t ∨ has_tag p t)) ∧
  (* value tags of the source win *)
  (∀ k v, value_tags (pi_comment q) !! k = Some v ↔
     value_tags (pi_comment p) !! k = Some v ∨
     (value_tags (pi_comment p) !! k = None ∧ value_tags (pi_comment x) !! k = Some v)) ∧
  (* comment lines: those there were, then those of the source that are new *)
  (∃ extra, lines (pi_comment q) = lines (pi_comment x) ++ extra ∧ sublist extra (lines (pi_comment p)) ∧
     NoDup extra ∧ ∀ l, l ∈ extra ↔ l ∈ lines (pi_comment p) ∧ l ∉ lines (pi_comment x)).
Proof. exact (c21_rules x p). Qed.
Print Assumptions C21_field_rules.
Theorem C21_idempotent x p : merge_posting (merge_posting x p) p = merge_posting x p.
Proof. exact (merge_posting_idem x p). Qed.
Print Assumptions C21_idempotent.
Example C21_ex :
  merge_posting (ex_post unknown 500 [s2l "fp-a2"; s2l "unknown-account"])
                (ex_post food 500 [s2l "fp-z"; s2l "groceries"]) =
  ex_post food 500 [s2l "fp-a2"; s2l "fp-z"; s2l "groceries"].
Proof. by_compute. Qed.

(** C22 *)
Theorem C22_soft_match a b : matches a b = true ↔ soft_match a b.
Proof. exact (matches_spec a b). Qed.
Print Assumptions C22_soft_match.
Theorem C22_soft_match_symmetric a b : matches a b = matches b a.
Proof. exact (c22_sym a b). Qed.
Print Assumptions C22_soft_match_symmetric.
Theorem C22_soft_match_reflexive a : matches a a = true.
Proof. exact (c22_refl a). Qed.
Print Assumptions C22_soft_match_reflexive.
Theorem C22_amounts_numeric a b :
  dec_eqb a b = true ↔ (dec_value a == dec_value b)%Q.
Proof. exact (dec_eqb_spec a b). Qed.
Print Assumptions C22_amounts_numeric.
Example C22_ex : dec_eqb (Dec false 2 500) (Dec false 0 5) = true ∧ dec_eqb (Dec true 2 500) (Dec false 0 5) = false ∧
  matches (ex_post unknown 500 [s2l "unknown-account"]) (ex_post food 500 []) = true.
Proof. by_compute. Qed.

(** C23 *)
Theorem C23_balance_changes_by_new_postings m j ho ho1 ho2 tps m' un out out' :
  reachable m → represents m j → hash_order_ok ho → hash_order_ok ho1 → hash_order_ok ho2 →
  merge ho m tps = (m', Ok un) → build ho1 m = Ok out → build ho2 m' = Ok out' →
  ∃ out0, sublist out0 out' ∧
    Forall2 (λ a b, tp_trn b = tp_trn a ∧ ∃ extra, (∀ p, p ∈ extra → newly_added j tps p) ∧
      length (tp_posts b) = length (tp_posts a) + length extra ∧
      ∀ c, (posts_value c (tp_posts b) == posts_value c (tp_posts a) + posts_value c extra)%Q) out out0.
Proof. exact (λ Hr Hj, built_balance m j Hr Hj ho ho1 ho2 tps m' un out out'). Qed.
Print Assumptions C23_balance_changes_by_new_postings.
Theorem C23_balance_kept m j ho ho1 ho2 tps m' un out out' :
  reachable m → represents m j → hash_order_ok ho → hash_order_ok ho1 → hash_order_ok ho2 →
  merge ho m tps = (m', Ok un) → build ho1 m = Ok out → build ho2 m' = Ok out' →
  (∀ p, ¬ newly_added j tps p) →
  length out' = length out ∧
  Forall2 (λ a b, tp_trn b = tp_trn a ∧ ∀ c, (posts_value c (tp_posts b) == posts_value c (tp_posts a))%Q) out out'.
Proof. exact (λ Hr Hj, built_stays_balanced m j Hr Hj ho ho1 ho2 tps m' un out out'). Qed.
Print Assumptions C23_balance_kept.
Example C23_ex :
  rmap (fmap (λ tp, Qred (posts_value (Commodity (s2l "GBP") PosLeft) (tp_posts tp))))
     (build default_order (merge default_order ex_m0 ex_s1).1) = Ok [0#1; 0#1; 1#5; -5#2]%Q.
Proof. vm_compute. reflexivity. Qed.

(** C24 *)
Theorem C24_merge_succeeds_iff_acceptable m j ho tps :
  reachable m → represents m j → hash_order_ok ho →
  (∃ m' un, merge ho m tps = (m', Ok un)) ↔ acceptable j tps.
Proof. exact (λ Hr Hj, merge_ok_iff m j Hr Hj ho tps). Qed.
Print Assumptions C24_merge_succeeds_iff_acceptable.
Theorem C24_otherwise_error m j ho tps :
  reachable m → represents m j → hash_order_ok ho → ¬ acceptable j tps → ∃ e, merge ho m tps = (m, Err e).
Proof. exact (λ Hr Hj, merge_rejected m j Hr Hj ho tps). Qed.
Print Assumptions C24_otherwise_error.
Example C24_ex : acceptable ex_j0 (ex_u4 :: ex_s1).
Proof.
  apply (C24_merge_succeeds_iff_acceptable ex_m0 ex_j0 default_order);
    [exact ex_m0_reachable|exact ex_m0_represents|exact default_order_ok|].
  eexists _, _. apply merge_eq. exact C11_ex.
Qed.

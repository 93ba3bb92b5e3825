(** Adaptations of the laws of merging to the statements in PropsMerge.v. *)
From Verif Require Import Base Types CommentModel MergeModel SpecBase BaseProofs MergeSpec MergeClaims
  MergeProofs MergePending MergeApply MergeBuild MergeClosed MergeLemmas MergePlaces MergeLaws MergeLaws2
  MergeLaws3 MergeLaws4 MergeReplay MergeLaws5 MergeExamples.
From Coq Require Import Lia.
Local Open Scope nat_scope.

Lemma denotes m :
  reachable m → ∃ j, represents m j ∧ (∀ j', represents m j' → j' = j) ∧
    ∀ ho, hash_order_ok ho → build ho m = Ok (stable_sort (by_key tp_date) (journal_trns j)).
Proof.
  intros Hr. destruct (reachable_represents m Hr) as (j & Hj & _). exists j. split_and!; [done|..].
  - intros j' Hj'. by eapply represents_journal.
  - intros ho Hho. by apply build_refines.
Qed.
Ltac with_journal Hr := let j := fresh "j" in let Hj := fresh "Hj" in
  destruct (reachable_represents _ Hr) as (j & Hj & _).
Lemma c01 m ho tps m' e : reachable m → hash_order_ok ho → merge ho m tps = (m', Err e) → m' = m.
Proof. intros Hr. with_journal Hr. by apply (failed_unchanged m j Hr Hj). Qed.
Lemma c02 m ho tps : reachable m → hash_order_ok ho → (merge ho m tps).2 ≠ Panic ∧ ∃ out, build ho m = Ok out.
Proof. intros Hr. with_journal Hr. by apply (never_panics m j Hr Hj). Qed.
Lemma c03_conflict m j ho tps p :
  reachable m → represents m j → hash_order_ok ho → p ∈ all_posts tps → conflicting j p →
  ∃ e, merge ho m tps = (m, Err e).
Proof.
  intros Hr Hj Hho Hp Hc. apply (merge_rejected m j Hr Hj); [done|]. intros Ha. by apply (ac_no_conflict _ _ Ha p Hp).
Qed.
Lemma c04 m ho out : reachable m → hash_order_ok ho → build ho m = Ok out → fps_distinct (all_posts out).
Proof. intros Hr. with_journal Hr. by apply (built_distinct m j Hr Hj). Qed.
Lemma c06 m ho ho' tps m' : reachable m → hash_order_ok ho → hash_order_ok ho' →
  merge ho m tps = (m', Ok []) → merge ho' m' tps = (m', Ok []).
Proof. intros Hr. with_journal Hr. by apply (remerge_same m j Hr Hj). Qed.
Lemma c08_sorted m ho out : reachable m → hash_order_ok ho → build ho m = Ok out →
  StronglySorted (λ a b, date_leb (tp_date a) (tp_date b) = true) out.
Proof. intros Hr. with_journal Hr. by apply (built_sorted m j Hj). Qed.
Lemma c10 m ho ho1 ho2 tps m' un out out' :
  reachable m → hash_order_ok ho → hash_order_ok ho1 → hash_order_ok ho2 →
  merge ho m tps = (m', Ok un) → build ho1 m = Ok out → build ho2 m' = Ok out' →
  ∃ out0, sublist out0 out' ∧ Forall2 trn_extends out out0.
Proof. intros Hr. with_journal Hr. by apply (built_refined m j Hr Hj). Qed.
Lemma c12 m ho tps : reachable m → hash_order_ok ho → ¬ fps_distinct (all_posts tps) →
  ∃ e, merge ho m tps = (m, Err e).
Proof.
  intros Hr Hho Hn. with_journal Hr. apply (merge_rejected m j Hr Hj); [done|]. intros Ha. by apply Hn, (ac_distinct _ _ Ha).
Qed.
Lemma c13 m ho tps p : reachable m → hash_order_ok ho → p ∈ all_posts tps → ¬ mergeable p →
  ∃ e, merge ho m tps = (m, Err e).
Proof.
  intros Hr Hho Hp Hn. with_journal Hr. apply (merge_rejected m j Hr Hj); [done|]. intros Ha.
  by apply Hn, (ac_mergeable _ _ Ha).
Qed.
Lemma c14 m j ho tps a b a' b' tp tp' p p' i :
  reachable m → represents m j → hash_order_ok ho →
  tps !! a = Some tp → tp_posts tp !! b = Some p → tps !! a' = Some tp' → tp_posts tp' !! b' = Some p' →
  to_merge j tp → to_merge j tp' → selects j (tp_date tp) p i → selects j (tp_date tp') p' i →
  (a, b) ≠ (a', b') → ∃ e, merge ho m tps = (m, Err e).
Proof.
  intros Hr Hj Hho H1 H2 H3 H4 H5 H6 H7 H8 Hne. apply (merge_rejected m j Hr Hj); [done|]. intros Ha.
  destruct (ac_one_source _ _ Ha a b a' b' tp tp' p p' i) as [-> ->]; done.
Qed.
Lemma c15 m j ho tps tp p q i k x y :
  reachable m → represents m j → hash_order_ok ho →
  tp ∈ tps → to_merge j tp → p ∈ tp_posts tp → q ∈ tp_posts tp →
  selects j (tp_date tp) p i → selects j (tp_date tp) q k →
  j_posts j !! i = Some x → j_posts j !! k = Some y → jp_trn x ≠ jp_trn y →
  ∃ e, merge ho m tps = (m, Err e).
Proof.
  intros Hr Hj Hho H1 H2 H3 H4 H5 H6 H7 H8 Hne. apply (merge_rejected m j Hr Hj); [done|]. intros Ha.
  by apply Hne, (ac_one_trn _ _ Ha tp p q i k x y).
Qed.
Lemma c17 m ho ho' tps : reachable m → hash_order_ok ho → hash_order_ok ho' →
  (merge ho m tps).1 = (merge ho' m tps).1 ∧ build ho m = build ho' m ∧
  ((∃ un un', (merge ho m tps).2 = Ok un ∧ (merge ho' m tps).2 = Ok un' ∧ Forall2 equal_but_candidates un un') ∨
   (∃ e e', (merge ho m tps).2 = Err e ∧ (merge ho' m tps).2 = Err e')).
Proof. intros Hr. with_journal Hr. by apply (order_irrelevant m j Hr Hj). Qed.
Lemma c20_returned m ho tps m' un tp : reachable m → hash_order_ok ho → merge ho m tps = (m', Ok un) →
  tp ∈ tps → tp_posts tp = [] → tp ∈ un.
Proof. intros Hr. with_journal Hr. by apply (empties_returned m j Hr Hj). Qed.
Lemma c20_none m ho out tp : reachable m → hash_order_ok ho → build ho m = Ok out → tp ∈ out → tp_posts tp ≠ [].
Proof. intros Hr. with_journal Hr. by apply (no_empties m j Hr Hj). Qed.

Lemma merge_lines_extra a b : ∃ extra, merge_lines a b = a ++ extra ∧ sublist extra b ∧ NoDup extra ∧
  ∀ l, l ∈ extra ↔ l ∈ b ∧ l ∉ a.
Proof.
  revert a. induction b as [|k b IH]; intros a.
  - exists []. unfold merge_lines. simpl. rewrite app_nil_r. split_and!; [done|constructor|constructor|].
    intros l. rewrite !elem_of_nil. naive_solver.
  - unfold merge_lines. simpl. fold (merge_lines a b). fold (merge_lines (a ++ [k]) b).
    destruct (existsb (λ x, str_eqb x k) a) eqn:E.
    + apply existsb_str in E. destruct (IH a) as (ex & H1 & H2 & H3 & H4). exists ex.
      split_and!; [exact H1|by constructor|done|]. intros l. rewrite H4, elem_of_cons. naive_solver.
    + assert (k ∉ a) as Hk by (rewrite <- existsb_str, E; done).
      destruct (IH (a ++ [k])) as (ex & H1 & H2 & H3 & H4). exists (k :: ex).
      split_and!.
      * etrans; [exact H1|]. by rewrite <- (assoc_L (++)).
      * by constructor.
      * apply NoDup_cons. split; [|done]. rewrite H4. set_solver.
      * intros l. rewrite elem_of_cons, H4, elem_of_cons, elem_of_app, elem_of_list_singleton.
        destruct (decide (l = k)) as [->|]; naive_solver.
Qed.

Lemma c21_rules x p :
  let q := merge_posting x p in
  p_amount (pi_raw q) = p_amount (pi_raw x) ∧
  p_reality (pi_raw q) = p_reality (pi_raw x) ∧
  (p_status (pi_raw x) = None → p_status (pi_raw q) = p_status (pi_raw p)) ∧
  (p_status (pi_raw x) = Some Pending →
     p_status (pi_raw q) = if decide (p_status (pi_raw p) = Some Cleared) then Some Cleared else Some Pending) ∧
  (p_status (pi_raw x) = Some Cleared → p_status (pi_raw q) = Some Cleared) ∧
  (p_balance (pi_raw x) = None → p_balance (pi_raw q) = p_balance (pi_raw p)) ∧
  (p_balance (pi_raw x) ≠ None → p_balance (pi_raw q) = p_balance (pi_raw x)) ∧
  (unknown_account x → ¬ unknown_account p → p_account (pi_raw q) = p_account (pi_raw p)) ∧
  (¬ unknown_account x ∨ unknown_account p → p_account (pi_raw q) = p_account (pi_raw x)) ∧
  (unknown_account q ↔ unknown_account x ∧ unknown_account p) ∧
  (∀ t, t ≠ s2l "unknown-account" → (has_tag q t ↔ has_tag x t ∨ has_tag p t)) ∧
  (∀ k v, value_tags (pi_comment q) !! k = Some v ↔
     value_tags (pi_comment p) !! k = Some v ∨
     (value_tags (pi_comment p) !! k = None ∧ value_tags (pi_comment x) !! k = Some v)) ∧
  (∃ extra, lines (pi_comment q) = lines (pi_comment x) ++ extra ∧ sublist extra (lines (pi_comment p)) ∧
     NoDup extra ∧ ∀ l, l ∈ extra ↔ l ∈ lines (pi_comment p) ∧ l ∉ lines (pi_comment x)).
Proof.
  intros q. subst q. pose proof (merge_posting_refines x p) as Hr. unfold unknown_account, has_tag.
  change (s2l "unknown-account") with UNKNOWN_ACCOUNT.
  split_and!.
  - apply Hr.
  - apply Hr.
  - rewrite merge_posting_status. intros ->. done.
  - rewrite merge_posting_status. intros ->. simpl. destruct (p_status (pi_raw p)) as [[]|]; by destruct (decide _).
  - rewrite merge_posting_status. intros ->. done.
  - rewrite merge_posting_balance. by intros ->.
  - rewrite merge_posting_balance. by destruct (p_balance (pi_raw x)).
  - rewrite merge_posting_account. intros H1 H2. by rewrite bool_decide_eq_true_2, bool_decide_eq_false_2 by done.
  - rewrite merge_posting_account. intros [H|H].
    + by rewrite bool_decide_eq_false_2 by done.
    + rewrite (bool_decide_eq_true_2 (UNKNOWN_ACCOUNT ∈ tags (pi_comment p))) by done. by rewrite andb_false_r.
  - rewrite merge_posting_tags. by rewrite decide_True.
  - intros t Ht. rewrite merge_posting_tags. by rewrite decide_False.
  - intros k v. rewrite merge_posting_values, lookup_union_Some_raw. done.
  - rewrite merge_posting_lines. apply merge_lines_extra.
Qed.
Lemma c22_sym a b : matches a b = matches b a.
Proof.
  destruct (matches a b) eqn:E1, (matches b a) eqn:E2; try done.
  - apply matches_spec, soft_match_sym, matches_spec in E1. congruence.
  - apply matches_spec, soft_match_sym, matches_spec in E2. congruence.
Qed.
Lemma c22_refl a : matches a a = true.
Proof. apply matches_spec, soft_match_refl. Qed.

(** The counterexample to C19. *)
Definition c19_t1 := ex_tp day1 (s2l "rent") [ex_post bank (-700) [s2l "fp-1"]].
Definition c19_t2 := ex_tp day2 (s2l "rent") [ex_post bank (-700) [s2l "fp-1"]; ex_post food 500 [s2l "fp-2"]].
Definition c19_t3 := ex_tp day1 (s2l "food") [ex_post food 500 [s2l "fp-3"]].
Definition c19_m : merger :=
  (merge default_order (merge default_order merger_new [c19_t1]).1 [c19_t2]).1.
Definition c19_m' : merger := (merge default_order c19_m [c19_t3]).1.
Definition c19_out := [ex_tp day1 (s2l "rent") [ex_post bank (-700) [s2l "fp-1"]; ex_post food 500 [s2l "fp-2"]]].
Lemma c19_refuted :
  ∃ m out tp p m' out',
    reachable m ∧ build default_order m = Ok out ∧ tp_posts tp = [p] ∧
    (∃ t q, out = [t] ∧ tp_date t = tp_date tp ∧ q ∈ tp_posts t ∧ soft_match q p ∧
       ∀ q', q' ∈ tp_posts t → ¬ share_fp q' p ∧ (soft_match q' p → q' = q)) ∧
    merge default_order m [tp] = (m', Ok []) ∧ build default_order m' = Ok out' ∧
    length out' = 2 ∧ length (all_posts out') = length (all_posts out) + 1.
Proof.
  exists c19_m, c19_out, c19_t3, (ex_post food 500 [s2l "fp-3"]), c19_m', (c19_out ++ [c19_t3]). split_and!.
  - unfold c19_m. repeat constructor; apply default_order_ok.
  - by_compute.
  - done.
  - eexists _, (ex_post food 500 [s2l "fp-2"]). split; [done|]. split; [done|]. split; [right; left|]. split.
    + apply matches_spec. by_compute.
    + intros q [->|[->|Hq%elem_of_nil]%elem_of_cons]%elem_of_cons; [..|done];
        (split; [rewrite <- share_fpb_spec; assert (∀ b, b = false → ¬ b = true) as H by (by intros [] ); apply H; by_compute|]).
      * intros H%matches_spec. exfalso. revert H. assert (∀ b, b = false → ¬ b = true) as H by (by intros []).
        apply H. by_compute.
      * done.
  - apply merge_eq. by_compute.
  - by_compute.
  - done.
  - done.
Qed.
Lemma c19_example : dates_agree journal_new ∧ dates_agree ex_j0.
Proof.
  assert (dates_agree journal_new) as H0 by (intros x h Hx; by apply elem_of_nil in Hx).
  split; [done|].
  destruct (merge default_order merger_new ex_s0) as [m' r] eqn:E.
  assert (r = Ok []) as ->.
  { replace r with (merge default_order merger_new ex_s0).2 by by rewrite E. by_compute. }
  assert (represents m' ex_j0) as Hm.
  { replace m' with ex_m0; [exact ex_m0_represents|]. unfold ex_m0. rewrite E. reflexivity. }
  refine (dates_kept merger_new journal_new reach_new rep_new default_order ex_s0 m' [] ex_j0
    default_order_ok E Hm H0 _).
  intros tp p i x h _ _ _ _ Hx. change (j_posts journal_new) with (@nil jpost) in Hx. rewrite lookup_nil in Hx. discriminate Hx.
Qed.

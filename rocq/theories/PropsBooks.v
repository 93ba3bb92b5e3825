(** Books that balance (C130). *)
From stdpp Require Import gmap list.
From Verif Require Import Base Types CommentModel MergeModel SpecBase MergeSpec MergeClaims MergeExamples CmdModel CmdClaims HeaderClaims BooksClaims Books BooksCmd.
From Coq Require Import QArith.
Local Open Scope nat_scope.

(** C130: what a merge does to sums of amounts.  Each input transaction that is merged
    becomes a transaction of its own, or goes to one transaction of the journal; to
    the amounts of that one are added those of its postings that have no counterpart
    in the journal, and nothing else. *)
Theorem C130_sums m j ho ho1 ho2 tps m' un out out' :
  reachable m → represents m j → hash_order_ok ho → hash_order_ok ho1 → hash_order_ok ho2 →
  merge ho m tps = (m', Ok un) → build ho1 m = Ok out → build ho2 m' = Ok out' →
  ∃ (gs : list grown) (news : list transaction_postings) (lo : transaction_postings → bool) (new : transaction_postings → posting_internal → bool),
    (∀ tp, lo tp = true ↔ ¬ to_merge j tp) ∧ (∀ tp p, new tp p = true ↔ matches_nothing j (tp_date tp) p) ∧
    out ≡ₚ g_before <$> gs ∧ out' ≡ₚ (g_after <$> gs) ++ news ∧
    filter (λ tp, lo tp = false) tps ≡ₚ (gs ≫= g_inputs) ++ news ∧
    (∀ tp, tp ∈ news → becomes_new j tp) ∧ (∀ g tp, g ∈ gs → tp ∈ g_inputs g → ¬ becomes_new j tp) ∧
    ∀ g, g ∈ gs → tp_trn (g_after g) = tp_trn (g_before g) ∧
      ∀ c, (posts_value c (tp_posts (g_after g)) == posts_value c (tp_posts (g_before g)) + selected_value new c (g_inputs g))%Q.
Proof. exact (λ Hr Hj, grown_sum m j Hr Hj ho ho1 ho2 tps m' un out out'). Qed.
Print Assumptions C130_sums.
(** When the input transactions balance, that is what their other postings, those
    with a counterpart, take away: so the transaction is out of balance by what the
    counterparts add up to. *)
Theorem C130_off_by_counterparts (new : transaction_postings → posting_internal → bool) g c :
  (∀ tp, tp ∈ g_inputs g → in_balance tp) →
  (posts_value c (tp_posts (g_after g)) == posts_value c (tp_posts (g_before g)) + selected_value new c (g_inputs g))%Q →
  (posts_value c (tp_posts (g_after g)) == posts_value c (tp_posts (g_before g)) - selected_value (λ tp p, negb (new tp p)) c (g_inputs g))%Q.
Proof. exact (grown_matched new g c). Qed.
Print Assumptions C130_off_by_counterparts.
(** The total over the journal grows by the new postings. *)
Theorem C130_total m j ho ho1 ho2 tps m' un out out' :
  reachable m → represents m j → hash_order_ok ho → hash_order_ok ho1 → hash_order_ok ho2 →
  merge ho m tps = (m', Ok un) → build ho1 m = Ok out → build ho2 m' = Ok out' →
  ∃ (lo : transaction_postings → bool) (new : transaction_postings → posting_internal → bool),
    (∀ tp, lo tp = true ↔ ¬ to_merge j tp) ∧ (∀ tp p, new tp p = true ↔ matches_nothing j (tp_date tp) p) ∧
    ∀ c, (posts_value c (all_posts out') == posts_value c (all_posts out) + selected_value new c (filter (λ tp, lo tp = false) tps))%Q.
Proof. exact (λ Hr Hj, total_value m j Hr Hj ho ho1 ho2 tps m' un out out'). Qed.
Print Assumptions C130_total.
(** A journal in which each transaction balances stays so, when those merged into it
    balance and have all or none of their postings in it: for one merge, *)
Theorem C130_in_balance m j ho ho1 ho2 tps m' un out out' :
  reachable m → represents m j → hash_order_ok ho → hash_order_ok ho1 → hash_order_ok ho2 →
  merge ho m tps = (m', Ok un) → build ho1 m = Ok out → build ho2 m' = Ok out' →
  (∀ tp, tp ∈ tps → to_merge j tp → in_balance tp ∧ all_or_none j tp) →
  (∀ tp, tp ∈ out → in_balance tp) → ∀ tp, tp ∈ out' → in_balance tp.
Proof. exact (λ Hr Hj, stays_in_balance m j Hr Hj ho ho1 ho2 tps m' un out out'). Qed.
Print Assumptions C130_in_balance.
(** for any number, *)
Theorem C130_history m runs m' : balanced_run m runs m' → reachable m →
  (∀ ho out, hash_order_ok ho → build ho m = Ok out → ∀ tp, tp ∈ out → in_balance tp) →
  ∀ ho out, hash_order_ok ho → build ho m' = Ok out → ∀ tp, tp ∈ out → in_balance tp.
Proof. exact (balanced_run_built m runs m'). Qed.
Print Assumptions C130_history.
(** and for the merge command. *)
Theorem C130_command E ho inputs um output w tpss w' m :
  hash_order_ok ho → journals E w inputs tpss w' → balanced_run merger_new (pair ho <$> tpss) m →
  (merges ho merger_new tpss [] m ∨ is_Some um) → um ≠ Some Stdio → (∀ f, um = Some f → writable E f) → writable E output →
  ∃ es out, merge_cmd E ho inputs um output w = (es, Ok tt) ∧ holds w (steps w es) output (e_print E (into_ledger ho out)) ∧
    ∀ tp, tp ∈ out → in_balance tp.
Proof. exact (books_command E ho inputs um output w tpss w' m). Qed.
Print Assumptions C130_command.
(** A journal with two payments and a set with one of them and another one. *)
Example C130_ex : reachable bk_m1 ∧ represents bk_m1 bk_j1 ∧ merge default_order bk_m1 bk_s1 = (bk_m2, Ok []) ∧
  (∀ tp, tp ∈ bk_s1 → in_balance tp ∧ all_or_none bk_j1 tp) ∧ rmap length (build default_order bk_m2) = Ok 3 ∧
  balanced_run merger_new (pair default_order <$> [bk_s0; bk_s1]) bk_m2 ∧
  journals bk_E bk_world [Path (s2l "a"); Path (s2l "b")] [bk_s0; bk_s1] bk_world ∧ merges default_order merger_new [bk_s0; bk_s1] [] bk_m2.
Proof.
  refine (conj bk_m1_reachable (conj bk_m1_represents (conj bk_merge2 (conj bk_step2 (conj _ (conj bk_run (conj bk_journals bk_merges))))))).
  vm_compute. reflexivity.
Qed.
(** That all or none of the postings are in the journal is needed: with half a
    payment in it, merging two transactions that balance gives one that does not. *)
Theorem C130_halves : ∃ m1 m2 out, in_balance bk_before ∧ in_balance bk_half ∧
  merge default_order merger_new [bk_before] = (m1, Ok []) ∧ merge default_order m1 [bk_half] = (m2, Ok []) ∧
  build default_order m2 = Ok [out] ∧ ¬ in_balance out.
Proof.
  destruct bk_unbalanced as (m1 & m2 & out & H1 & H2 & H3 & H4).
  exists m1, m2, out. exact (conj (bk_balance _ _ _ _ _ _ _) (conj (bk_balance _ _ _ _ _ _ _) (conj H1 (conj H2 (conj H3 H4))))).
Qed.
Print Assumptions C130_halves.

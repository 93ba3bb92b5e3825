(** C19, exactly: when the date under which a posting is found is that of its transaction. *)
From Verif Require Import Base Types CommentModel MergeModel SpecBase BaseProofs MergeSpec MergeClaims
  MergeLemmas MergeExamples PropsMergeProofs ResolveClaims DatesClaims Dates DatesExamples.
Local Open Scope nat_scope.

(** A merge leaves every posting recorded under the date of its transaction if
    and only if they were before, and no input transaction adds a posting to a
    transaction of another date. *)
Theorem C19_exact m j ho tps m' un j' :
  reachable m → represents m j → hash_order_ok ho → merge ho m tps = (m', Ok un) → represents m' j' →
  dates_agree j' ↔ dates_agree j ∧ joins_own_date j tps.
Proof. exact (λ Hr Hj, dates_exact m j Hr Hj ho tps m' un j'). Qed.
Print Assumptions C19_exact.
Example C19_exact_ex : dates_agree ex_days1 ∧ ¬ dates_agree ex_days2 ∧ ¬ joins_own_date ex_days1 [c19_t2].
Proof. exact ex_days. Qed.
Example C19_exact_ex2 : dates_agree (spec_merge ex_days1 [ex_days_t4]) ∧ joins_own_date ex_days1 [ex_days_t4].
Proof. exact ex_days_own. Qed.

(** So after a history of calls, failed ones included, the dates are those of the
    transactions if and only if no successful call added such a posting. *)
Theorem C19_history h j : Forall (λ s, hash_order_ok s.1) h → represents (after merger_new h) j →
  dates_agree j ↔ ∀ h1 ho s h2 j1 un, h = h1 ++ (ho, s) :: h2 → represents (after merger_new h1) j1 →
    (merge ho (after merger_new h1) s).2 = Ok un → joins_own_date j1 s.
Proof. exact (dates_history h j). Qed.
Print Assumptions C19_history.
Example C19_history_ex : Forall (λ s, hash_order_ok s.1) [(default_order, [c19_t1]); (default_order, [c19_t2])] ∧
  represents (after merger_new [(default_order, [c19_t1]); (default_order, [c19_t2])]) ex_days2.
Proof.
  split; [|exact (proj2 ex_days2_run)]. apply Forall_cons. split; [exact default_order_ok|].
  apply Forall_cons. split; [exact default_order_ok|]. by apply Forall_nil.
Qed.

(** When they are, the postings that can soft match an input posting dated [d] are
    those in the transactions dated [d] of what would be written now. *)
Theorem C19_candidates d m j ho out :
  reachable m → represents m j → hash_order_ok ho → dates_agree j → build ho m = Ok out →
  all_posts (filter (λ t, tp_date t = d) out) ≡ₚ jp_post <$> filter (λ x, jp_date x = d) (j_posts j).
Proof. exact (λ Hr Hj Hho, dated_posts d ho m j out Hho Hj (reachable_wf m j Hr Hj)). Qed.
Print Assumptions C19_candidates.
Example C19_candidates_ex : dates_agree ex_days1 ∧
  build default_order (merge default_order merger_new [c19_t1]).1 = Ok [c19_t1] ∧
  jp_post <$> filter (λ x, jp_date x = day1) (j_posts ex_days1) = [ex_post bank (-700) [s2l "fp-1"]].
Proof. split; [exact (proj1 ex_days)|]. split; by_compute. Qed.

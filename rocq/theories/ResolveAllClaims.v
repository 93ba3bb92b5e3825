(** Specification vocabulary for resolving all that one run of merges handed back. *)
From Verif Require Import Base Types MergeModel SpecBase MergeSpec MergeClaims ResolveClaims PiecesClaims.

(** The transactions [trs] are the transactions [un] as the user edited them, and
    the journal is [j]; the choices made go together. *)
Record resolvable (j : journal) (un trs : list transaction_postings) : Prop := {
  rv_edited : Forall2 resolution un trs;
  rv_posts : ∀ tp, tp ∈ un → tp_posts tp ≠ [];
  (** no two postings handed back have the same fingerprint; *)
  rv_distinct : fps_distinct (all_posts un);
  (** postings with candidates have a fingerprint that is not in the journal; *)
  rv_fresh : ∀ u, u ∈ all_posts un → ¬ no_candidates u → ∀ i, ¬ fp_match_at j u i;
  (** other postings are not ambiguous; *)
  rv_clear : ∀ tp u, tp ∈ un → u ∈ tp_posts tp → no_candidates u → ¬ ambiguous j (tp_date tp) u ∧ ¬ conflicting j u;
  (** the postings of one transaction go to one transaction, *)
  rv_one_trn : ∀ tr r r' i i' x x', tr ∈ trs → r ∈ tp_posts tr → r' ∈ tp_posts tr →
    selects j (tp_date tr) r i → selects j (tp_date tr) r' i' →
    j_posts j !! i = Some x → j_posts j !! i' = Some x' → jp_trn x = jp_trn x';
  (** and different postings to different postings; *)
  rv_one_source : ∀ a b a' b' tr tr' r r' i,
    trs !! a = Some tr → tp_posts tr !! b = Some r → trs !! a' = Some tr' → tp_posts tr' !! b' = Some r' →
    selects j (tp_date tr) r i → selects j (tp_date tr') r' i → a = a' ∧ b = b';
  (** those that become new postings are not taken for each other. *)
  rv_apart : told_apart j trs;
}.

(** The journal [j3] is [j] with the edited transactions [trs] merged into it. *)
Record all_resolved (j : journal) (un trs : list transaction_postings) (j3 : journal) : Prop := {
  (** a posting for which [f] was chosen goes to the posting with fingerprint [f]; *)
  al_chosen : ∀ a tp tr b u r f, un !! a = Some tp → trs !! a = Some tr →
    tp_posts tp !! b = Some u → tp_posts tr !! b = Some r → resolves f u r →
    ∃ i x, j_posts j !! i = Some x ∧ has_fp (jp_post x) f ∧ selects j (tp_date tr) r i;
  (** postings are merged into those they go to, *)
  al_merged : ∀ tr r i x, tr ∈ trs → r ∈ tp_posts tr → selects j (tp_date tr) r i → j_posts j !! i = Some x →
    j_posts j3 !! i = Some (JP (jp_trn x) (jp_date x) (merge_posting (jp_post x) r));
  (** or are new postings; *)
  al_new : ∀ tr r, tr ∈ trs → r ∈ tp_posts tr → matches_nothing j (tp_date tr) r →
    ∃ i t, (length (j_posts j) ≤ i)%nat ∧ j_posts j3 !! i = Some (JP t (tp_date tr) r);
  (** all other postings of the journal stay as they are. *)
  al_others : ∀ i x, j_posts j !! i = Some x →
    (∀ tr r, tr ∈ trs → r ∈ tp_posts tr → ¬ selects j (tp_date tr) r i) → j_posts j3 !! i = Some x;
}.

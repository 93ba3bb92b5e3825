(** What it takes for postings to be recorded under the dates of their transactions (C19). *)
From Verif Require Import Base Types CommentModel MergeModel SpecBase MergeSpec MergeClaims.
Local Open Scope nat_scope.

(** No input transaction adds a posting to a transaction of another date. *)
Definition joins_own_date (j : journal) (tps : list transaction_postings) : Prop :=
  ∀ tp p q i x h, tp ∈ tps → to_merge j tp →
    p ∈ tp_posts tp → matches_nothing j (tp_date tp) p →
    q ∈ tp_posts tp → selects j (tp_date tp) q i →
    j_posts j !! i = Some x → j_trns j !! jp_trn x = Some h → t_date (ti_raw h) = tp_date tp.

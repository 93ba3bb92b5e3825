(** Specification vocabulary for the same payments coming from two sources. *)
From Verif Require Import Base Types MergeModel SpecBase MergeSpec MergeClaims.

(** The transactions of the first source are the first components. With each comes the
    same payment as the second source reports it, if it does: a transaction, and its
    postings in the order of those they belong to. *)
Notation paired := (list (transaction_postings * option (transaction_postings * list posting_internal))).
Definition first_source (w : paired) : list transaction_postings := w.*1.
(** What the second source holds: the other halves of the pairs, and payments only it knows. *)
Definition second_source (w : paired) (extra : list transaction_postings) : list transaction_postings :=
  omap (λ x, fst <$> x.2) w ++ extra.
(** One payment as the journal should show it: the header of the first source, and
    each posting of the first source merged with its counterpart. *)
Definition joined (x : transaction_postings * option (transaction_postings * list posting_internal)) : transaction_postings :=
  match x.2 with
  | Some (_, qs) => TP (tp_trn x.1) (zip_with merge_posting (tp_posts x.1) qs)
  | None => x.1
  end.
(** Two sources that agree on the payments both of them report. *)
Record two_sources (w : paired) (extra : list transaction_postings) : Prop := {
  (** Every posting has a fingerprint and no candidate tag; *)
  ts_mergeable : ∀ p, p ∈ all_posts (first_source w) ++ all_posts (second_source w extra) → mergeable p;
  (** no fingerprint occurs twice, neither within one source nor across the two; *)
  ts_distinct : fps_distinct (all_posts (first_source w) ++ all_posts (second_source w extra));
  (** every transaction has postings; *)
  ts_posts : ∀ tp, tp ∈ first_source w ++ extra → tp_posts tp ≠ [];
  (** the two halves of a pair have one date, and their postings soft match in the given order; *)
  ts_twins : ∀ tp tp' qs, (tp, Some (tp', qs)) ∈ w →
    tp_date tp' = tp_date tp ∧ qs ≡ₚ tp_posts tp' ∧ Forall2 soft_match (tp_posts tp) qs;
  (** a posting of the second source soft matches none of the first on the same day but its counterpart; *)
  ts_apart : ∀ a a' b b' tp o tp' tp'' qs p q, w !! a = Some (tp, o) → w !! a' = Some (tp'', Some (tp', qs)) →
    tp_posts tp !! b = Some p → qs !! b' = Some q → tp_date tp = tp_date tp' → soft_match p q → a = a' ∧ b = b';
  (** the payments only the second source knows soft match none of the first on the same day. *)
  ts_new : ∀ tp tp' p q, tp ∈ first_source w → tp' ∈ extra → p ∈ tp_posts tp → q ∈ tp_posts tp' →
    tp_date tp = tp_date tp' → ¬ soft_match p q;
}.
(** The payments only the second source knows are not taken for one another, nor any other payment of it for them. *)
Definition extra_apart (w : paired) (extra : list transaction_postings) : Prop :=
  ∀ c c' tp tp' q p, second_source w extra !! c = Some tp → second_source w extra !! c' = Some tp' → c ≠ c' →
    tp ∈ extra → q ∈ tp_posts tp → p ∈ tp_posts tp' → tp_date tp = tp_date tp' → ¬ soft_match q p.

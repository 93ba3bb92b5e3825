(** Specification vocabulary for what a user does with transactions that were
    handed back (README.md, "Existing posting lookup"). *)
From Verif Require Import Base Types MergeModel SpecBase MergeSpec MergeClaims.

(** [r] is the posting [u] that was handed back, edited as README.md says: the
    prefix [candidate-] is removed from the tag [candidate-f], and all other tags
    that begin with [candidate-] are removed. *)
Definition resolves (f : str) (u r : posting_internal) : Prop :=
  pi_raw r = pi_raw u ∧ lines (pi_comment r) = lines (pi_comment u) ∧
  value_tags (pi_comment r) = value_tags (pi_comment u) ∧
  has_tag u (s2l "candidate-" ++ f) ∧
  ∀ t, has_tag r t ↔ t = f ∨ (has_tag u t ∧ ¬ candidate_tag t).
Definition no_candidates (u : posting_internal) : Prop := ∀ t, has_tag u t → ¬ candidate_tag t.
(** All candidates of a transaction are resolved, everything else stays. *)
Definition resolution (tp tr : transaction_postings) : Prop :=
  tp_trn tr = tp_trn tp ∧
  Forall2 (λ u r, (∃ f, resolves f u r) ∨ (no_candidates u ∧ r = u)) (tp_posts tp) (tp_posts tr).

(** The merger after further calls, whatever their outcome. *)
Definition after (m : merger) (h : list (hash_order * list transaction_postings)) : merger :=
  foldl (λ m s, (merge s.1 m s.2).1) m h.
(** None of the inputs of these calls has a fingerprint of [u]. *)
Definition unrelated (h : list (hash_order * list transaction_postings)) (u : posting_internal) : Prop :=
  ∀ s p, s ∈ h → p ∈ all_posts s.2 → ¬ share_fp p u.

(** Existing posting [x] already has everything of [p]: its tags (other than
    [unknown-account]), its text and value tags, a status at least as advanced, a
    balance if it has one, and an account if it knows one. *)
Record has_all (x p : posting_internal) : Prop := {
  ha_tags : ∀ t, has_tag p t → t ≠ s2l "unknown-account" → has_tag x t;
  ha_lines : ∀ l, l ∈ lines (pi_comment p) → l ∈ lines (pi_comment x);
  ha_values : value_tags (pi_comment p) ⊆ value_tags (pi_comment x);
  ha_status : status_le (p_status (pi_raw p)) (p_status (pi_raw x));
  ha_balance : p_balance (pi_raw x) = None → p_balance (pi_raw p) = None;
  ha_account : unknown_account x → unknown_account p;
}.

(** Specification vocabulary for journals edited by hand or by rules (C84, C85). *)
From Verif Require Import Base Types SpecBase MergeClaims RulesModel RulesClaims.

(** [J] is [out] after editing: [place a b] is where posting [b] of transaction [a]
    is now.  It kept its fingerprints; postings of one transaction are still in one
    transaction; different postings are still different.  Everything else may have
    changed: order, dates, descriptions, accounts, amounts, other tags, and there
    may be new transactions and postings. *)
Definition edited (out J : list transaction_postings) : Prop :=
  ∃ place : nat → nat → nat * nat,
    (∀ a b tp p, out !! a = Some tp → tp_posts tp !! b = Some p →
       ∃ tp' p', J !! (place a b).1 = Some tp' ∧ tp_posts tp' !! (place a b).2 = Some p' ∧ ∀ f, has_fp p f → has_fp p' f) ∧
    (∀ a b b' tp p p', out !! a = Some tp → tp_posts tp !! b = Some p → tp_posts tp !! b' = Some p' →
       (place a b).1 = (place a b').1) ∧
    (∀ a b a' b' tp p tp' p', out !! a = Some tp → tp_posts tp !! b = Some p → out !! a' = Some tp' → tp_posts tp' !! b' = Some p' →
       place a b = place a' b' → a = a' ∧ b = b').

(** What [merge] demands of a journal. *)
Definition journal_ok (J : list transaction_postings) : Prop :=
  (∀ p, p ∈ all_posts J → mergeable p) ∧ fps_distinct (all_posts J) ∧ ∀ tp, tp ∈ J → tp_posts tp ≠ [].

(** The same transaction with the same postings, these at most refined. *)
Definition trn_refines (a b : transaction_postings) : Prop :=
  tp_trn b = tp_trn a ∧ Forall2 post_refines (tp_posts a) (tp_posts b).

(** No action of the table adds or removes fingerprints or candidate tags. *)
Definition leaves_fingerprints (T : table) : Prop :=
  ∀ t, fp_tag t ∨ candidate_tag t → ¬ has_action T (AAddPostFlag t) ∧ ¬ has_action T (ARemovePostFlag t).

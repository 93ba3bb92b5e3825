(** Specification vocabulary for a journal that is kept over time: statements are
    merged into it, and in between it is edited by hand (C135). *)
From stdpp Require Import list.
From Verif Require Import Base Types MergeModel SpecBase MergeClaims EditClaims WindowClaims.

(** Those of the parts [w] of the stream that are not among [seen]. *)
Definition unseen (seen w : list nat) : list nat := filter (.∉ seen) w.

(** The unseen parts of a statement are news to the journal: it has none of their
    fingerprints, and none of its postings on the same date could be taken for one
    of theirs. *)
Definition news (parts : list (list transaction_postings)) (seen w : list nat) (J : list transaction_postings) : Prop :=
  ∀ tp t p q, tp ∈ window parts (unseen seen w) → t ∈ J → p ∈ tp_posts tp → q ∈ tp_posts t →
    ¬ share_fp q p ∧ (tp_date t = tp_date tp → ¬ soft_match q p).

(** [J] is a journal kept over time, into which the parts [seen] of the stream have
    been merged. *)
Inductive kept (parts : list (list transaction_postings)) : list nat → list transaction_postings → Prop :=
  (** It may start with transactions of its own, or empty. *)
  | kept_start J : journal_ok J → kept parts [] J
  (** It is edited. *)
  | kept_edit seen J J' : kept parts seen J → edited J J' → journal_ok J' → kept parts seen J'
  (** A statement, of any parts of the stream, is merged into it: a new merger takes
      the journal, then the statement, and what it builds replaces the journal. *)
  | kept_merge seen J w ho1 ho2 hb m1 m2 un1 un2 out :
      kept parts seen J → NoDup w → news parts seen w J →
      hash_order_ok ho1 → hash_order_ok ho2 → hash_order_ok hb →
      merge ho1 merger_new J = (m1, Ok un1) → merge ho2 m1 (window parts w) = (m2, Ok un2) → build hb m2 = Ok out →
      kept parts (seen ++ unseen seen w) out.

(** The journal [J] has the payment [tp] once: in one transaction, each posting of
    [tp] has there a posting with all its fingerprints, and no other posting of the
    journal has any of them. *)
Definition has_once (J : list transaction_postings) (tp : transaction_postings) : Prop :=
  ∃ a t, J !! a = Some t ∧ ∀ p, p ∈ tp_posts tp → ∃ b q, tp_posts t !! b = Some q ∧ (∀ f, has_fp p f → has_fp q f) ∧
    ∀ a' t' b' q', J !! a' = Some t' → tp_posts t' !! b' = Some q' → share_fp q' p → a' = a ∧ b' = b.

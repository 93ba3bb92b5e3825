(** Specification vocabulary for a journal written by hand that meets a bank's
    statement (C118). *)
From Verif Require Import Base Types MergeModel SpecBase MergeSpec MergeClaims CmdClaims TwinClaims.

(** A journal written by hand (the first components), and with each payment what the
    bank reports of it, if it does; [extra] is what only the bank knows.  This is
    [two_sources] without fingerprints in the journal. *)
Record hand_and_bank (w : paired) (extra : list transaction_postings) : Prop := {
  (** No posting of the journal has a candidate tag; those of the bank can be merged; *)
  hb_hand : ∀ p t, p ∈ all_posts (first_source w) → has_tag p t → ¬ candidate_tag t;
  hb_bank : ∀ p, p ∈ all_posts (second_source w extra) → mergeable p;
  (** the fingerprints there are occur once; *)
  hb_distinct : fps_distinct (all_posts (first_source w) ++ all_posts (second_source w extra));
  (** every transaction has postings; *)
  hb_posts : ∀ tp, tp ∈ first_source w ++ extra → tp_posts tp ≠ [];
  (** the two halves of a pair have one date, and their postings soft match in the given order; *)
  hb_twins : ∀ tp tp' qs, (tp, Some (tp', qs)) ∈ w →
    tp_date tp' = tp_date tp ∧ qs ≡ₚ tp_posts tp' ∧ Forall2 soft_match (tp_posts tp) qs;
  (** a posting of the bank soft matches none of the journal on the same day but its counterpart; *)
  hb_apart : ∀ a a' b b' tp o tp' tp'' qs p q, w !! a = Some (tp, o) → w !! a' = Some (tp'', Some (tp', qs)) →
    tp_posts tp !! b = Some p → qs !! b' = Some q → tp_date tp = tp_date tp' → soft_match p q → a = a' ∧ b = b';
  (** what only the bank knows soft matches nothing of the journal on the same day. *)
  hb_new : ∀ tp tp' p q, tp ∈ first_source w → tp' ∈ extra → p ∈ tp_posts tp → q ∈ tp_posts tp' →
    tp_date tp = tp_date tp' → ¬ soft_match p q;
}.
(** The generated ids are distinct, and no tag of a posting has one of them. *)
Definition new_ids (gen : nat → str) (ps : list posting_internal) : Prop :=
  (∀ i k, gen i = gen k → i = k) ∧ ∀ i p, p ∈ ps → ¬ has_tag p (s2l "fp-uuidb64-" ++ gen i).
(** The pairs of [w'] are those of [w], with fingerprints added to the journal's half. *)
Definition fingerprinted (gen : nat → str) (w w' : paired) : Prop :=
  fingerprints_added gen (first_source w) (first_source w') ∧ w'.*2 = w.*2.

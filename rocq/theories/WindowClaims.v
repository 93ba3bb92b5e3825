(** Specification vocabulary for overlapping statements (C86-C88). *)
From Verif Require Import Base Types SpecBase MergeClaims EditClaims.

(** The numbered parts [w] of a stream of transactions, in the order of [w]. *)
Definition window {A} (parts : list (list A)) (w : list nat) : list A :=
  w ≫= (λ k, default [] (parts !! k)).

(** The parts of a stream can be told apart: as a whole it could be merged, and
    postings of different parts on the same date do not soft match. *)
Record separate (parts : list (list transaction_postings)) : Prop := {
  sp_ok : journal_ok (concat parts);
  sp_apart : ∀ i k D E tp tp' p q, i ≠ k → parts !! i = Some D → parts !! k = Some E → tp ∈ D → tp' ∈ E →
    p ∈ tp_posts tp → q ∈ tp_posts tp' → tp_date tp = tp_date tp' → ¬ soft_match p q;
}.
(** The parts are days. *)
Definition days {A} (date_of : A → date) (parts : list (list A)) : Prop :=
  ∀ i k D E a b, parts !! i = Some D → parts !! k = Some E → a ∈ D → b ∈ E → date_of a = date_of b ↔ i = k.

(** The parts that occur in at least one of the windows. *)
Definition covers (ws : list (list nat)) (seen : list nat) : Prop :=
  NoDup seen ∧ ∀ k, k ∈ seen ↔ ∃ w, w ∈ ws ∧ k ∈ w.

(** Specification vocabulary for payments deleted from a journal (C137). *)
From stdpp Require Import list.
From Verif Require Import Base Types MergeModel SpecBase MergeClaims.

(** The journal has no posting of [tp]. *)
Definition gone (J : list transaction_postings) (tp : transaction_postings) : Prop :=
  ∀ p q, p ∈ tp_posts tp → q ∈ all_posts J → ¬ share_fp q p.
(** No posting of the journal on the date of [tp] could be taken for one of [tp]. *)
Definition not_mistaken (J : list transaction_postings) (tp : transaction_postings) : Prop :=
  ∀ t p q, t ∈ J → p ∈ tp_posts tp → q ∈ tp_posts t → tp_date t = tp_date tp → ¬ soft_match q p.

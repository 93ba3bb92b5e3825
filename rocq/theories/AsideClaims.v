(** Specification vocabulary for merging into a journal with transactions that do not
    concern what is merged. *)
From Verif Require Import Base Types SpecBase MergeModel MergeClaims CmdClaims.

(** No posting of [old] could be taken for a posting of [s]: they have no fingerprint
    in common, and those on the same date are not alike. *)
Definition unconcerned (old s : list transaction_postings) : Prop :=
  ∀ t q tp p, t ∈ old → q ∈ tp_posts t → tp ∈ s → p ∈ tp_posts tp →
    ¬ share_fp q p ∧ (tp_date t = tp_date tp → ¬ soft_match q p).

(** [l] is [old] and [new] put together: in the order of dates, and on each date first
    the transactions of [old], then those of [new], each in their order. *)
Definition put_together (old new l : list transaction_postings) : Prop :=
  StronglySorted (λ a b, date_leb (tp_date a) (tp_date b) = true) l ∧
  ∀ d, filter (λ tp, tp_date tp = d) l = filter (λ tp, tp_date tp = d) old ++ filter (λ tp, tp_date tp = d) new.

(** Merging sets from [m0'] does what merging them from [m0] does: it succeeds for the
    same sets, hands the same transactions back, and the journal is the same with
    [old] put in. *)
Definition same_aside (old : list transaction_postings) (ho ho' : hash_order) (m0 m0' : merger) (sets : list (list transaction_postings)) : Prop :=
  (∀ un m, merges ho m0 sets un m → ∃ un' m', merges ho' m0' sets un' m' ∧ Forall2 equal_but_candidates un un' ∧
     ∀ hb hb' out, hash_order_ok hb → hash_order_ok hb' → build hb m = Ok out →
       ∃ out', build hb' m' = Ok out' ∧ put_together old out out') ∧
  (∀ un' m', merges ho' m0' sets un' m' → ∃ un m, merges ho m0 sets un m).

(** Specification vocabulary: moving dates (C145). *)
From Verif Require Import Base Types CommentModel MergeModel SpecBase.

(** The date [d] of every transaction becomes [f d]; nothing else changes. *)
Definition redate_trn (f : date → date) (h : transaction_internal) : transaction_internal :=
  let t := ti_raw h in
  TI (Transaction (t_comment t) (f (t_date t)) (t_effective_date t) (t_status t) (t_code t) (t_description t) (t_postings t)) (ti_comment h).
Definition redate (f : date → date) (tp : transaction_postings) : transaction_postings :=
  TP (redate_trn f (tp_trn tp)) (tp_posts tp).

(** [a] is an earlier day than [b]. *)
Definition earlier (a b : date) : Prop :=
  let '(y, m, d) := a in let '(y', m', d') := b in
  (y < y')%Z ∨ (y = y' ∧ ((m < m')%N ∨ (m = m' ∧ (d < d')%N))).
(** The days among [D] stay in the same order. *)
Definition keeps_order (D : date → Prop) (f : date → date) : Prop := ∀ a b, D a → D b → earlier a b → earlier (f a) (f b).
(** All dates of the transactions are among [D]. *)
Definition only_days (D : date → Prop) (tps : list transaction_postings) : Prop :=
  ∀ tp, tp ∈ tps → D (tp_date tp).

(** Two journals made in the same way, one with the old dates and one with the new, by
    any number of merges, also of ones that failed, with any hash iteration orders. *)
Inductive made_redated (D : date → Prop) (f : date → date) : merger → merger → Prop :=
  | made_redated_new : made_redated D f merger_new merger_new
  | made_redated_merge m m' ho ho' tps : made_redated D f m m' → hash_order_ok ho → hash_order_ok ho' → only_days D tps →
      made_redated D f (merge ho m tps).1 (merge ho' m' (redate f <$> tps)).1.
(** The same for several inputs. *)
Definition redate_inputs (f : date → date) (sets : list (list transaction_postings)) : list (list transaction_postings) :=
  (λ tps : list transaction_postings, redate f <$> tps) <$> sets.

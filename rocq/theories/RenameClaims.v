(** Specification vocabulary: renaming accounts and currencies (C141). *)
From Verif Require Import Base Types CommentModel MergeModel SpecBase.

(** Every account [a] becomes [fa a], and every currency [c] becomes [fc c], in
    amounts, prices and balances alike. *)
Definition rename_amount (fc : str → str) (a : amount) : amount :=
  Amount (a_quantity a) (Commodity (fc (cm_name (a_commodity a))) (cm_pos (a_commodity a))).
Definition rename_price (fc : str → str) (p : price) : price :=
  match p with PriceUnit a => PriceUnit (rename_amount fc a) | PriceTotal a => PriceTotal (rename_amount fc a) end.
Definition rename_posting_amount (fc : str → str) (a : posting_amount) : posting_amount :=
  PostingAmount (rename_amount fc (pa_amount a)) (rename_price fc <$> pa_lot_price a) (rename_price fc <$> pa_price a).
Definition rename_balance (fc : str → str) (b : balance) : balance :=
  match b with BalZero => BalZero | BalAmount a => BalAmount (rename_amount fc a) end.
Definition rename_post (fa fc : str → str) (p : posting_internal) : posting_internal :=
  let r := pi_raw p in
  PI (Posting (fa (p_account r)) (p_reality r) (rename_posting_amount fc <$> p_amount r) (rename_balance fc <$> p_balance r)
        (p_status r) (p_comment r)) (pi_comment p).
Definition rename (fa fc : str → str) (tp : transaction_postings) : transaction_postings :=
  TP (tp_trn tp) (rename_post fa fc <$> tp_posts tp).

(** The currencies a posting mentions. *)
Definition price_amount (p : price) : amount := match p with PriceUnit a | PriceTotal a => a end.
Definition amounts_of (p : posting) : list amount :=
  match p_amount p with
  | Some a => pa_amount a :: (price_amount <$> (option_list (pa_lot_price a) ++ option_list (pa_price a)))
  | None => []
  end ++ match p_balance p with Some (BalAmount a) => [a] | _ => [] end.
(** All accounts of the transactions are among [A], all currencies among [C]. *)
Definition only_names (A C : str → Prop) (tps : list transaction_postings) : Prop :=
  ∀ tp p, tp ∈ tps → p ∈ tp_posts tp →
    A (p_account (pi_raw p)) ∧ ∀ a, a ∈ amounts_of (pi_raw p) → C (cm_name (a_commodity a)).
(** No two of these names are given the same new name. *)
Definition stay_apart (A : str → Prop) (f : str → str) : Prop := ∀ a b, A a → A b → f a = f b → a = b.

(** Two journals made in the same way, one with the old names and one with the new,
    by any number of merges, also of ones that failed. *)
Inductive made_renamed (A C : str → Prop) (fa fc : str → str) : merger → merger → Prop :=
  | made_renamed_new : made_renamed A C fa fc merger_new merger_new
  | made_renamed_merge m m' ho tps : made_renamed A C fa fc m m' → only_names A C tps →
      made_renamed A C fa fc (merge ho m tps).1 (merge ho m' (rename fa fc <$> tps)).1.
(** The same for several inputs. *)
Definition rename_inputs (fa fc : str → str) (sets : list (list transaction_postings)) : list (list transaction_postings) :=
  (λ tps : list transaction_postings, rename fa fc <$> tps) <$> sets.

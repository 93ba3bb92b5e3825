(** Specification vocabulary: the output time zone of PayPal imports (C150). *)
From stdpp Require Import gmap list.
From Verif Require Import Base Types.

(** The same transaction on another date. *)
Definition other_date (t t' : transaction) : Prop :=
  t' = Transaction (t_comment t) (t_date t') (t_effective_date t) (t_status t) (t_code t) (t_description t) (t_postings t).
(** Transactions with the same postings; dates, descriptions and all else of the
    transactions themselves may differ. *)
Definition same_postings (tp tp' : transaction_postings) : Prop := tp_posts tp' = tp_posts tp.

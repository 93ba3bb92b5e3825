(** Specification vocabulary for the same statement imported in two formats. *)
From Verif Require Import MergeClaims.
From Verif Require Import Base Types MergeModel CommentModel SpecBase NwCsvModel PaypalModel CommentClaims FingerprintClaims ImportClaims TwinClaims.
From Coq Require Import QArith.
Local Open Scope nat_scope.

(** Transactions of the first statement, each with the transaction of the second
    statement for the same payment, if there is one. *)
Notation aligned := (list (transaction * option transaction)).
(** The amount of the own posting, which comes first. *)
Definition own_amount_is (t : transaction) (a : amount) : Prop :=
  ∃ own rest, t_postings t = own :: rest ∧ p_amount own = Some (PostingAmount a None None).
(** One payment: the same date, the same amount, no contradicting balance. *)
Definition same_payment (t t' : transaction) : Prop :=
  t_date t' = t_date t ∧ (∃ a a', own_amount_is t a ∧ own_amount_is t' a' ∧ same_amount a a') ∧
  ∀ own own' rest rest' x y, t_postings t = own :: rest → t_postings t' = own' :: rest' →
    p_balance own = Some x → p_balance own' = Some y → same_balance x y.
(** Equal apart from the sign. *)
Definition same_size (a b : amount) : Prop :=
  a_commodity a = a_commodity b ∧
  (dec_value (a_quantity a) == dec_value (a_quantity b) ∨ dec_value (a_quantity a) == - dec_value (a_quantity b))%Q.
(** Both statements list the payments of one account: [w] those of the first, [new]
    those only the second lists. *)
Record statements_agree (w : aligned) (new : list transaction) : Prop := {
  sa_same : ∀ t t', (t, Some t') ∈ w → same_payment t t';
  (** payments of one day differ in size, *)
  sa_apart : ∀ i k t t' a a', (w.*1 ++ new) !! i = Some t → (w.*1 ++ new) !! k = Some t' → i ≠ k →
    t_date t = t_date t' → own_amount_is t a → own_amount_is t' a' → ¬ same_size a a';
  (** and none is zero. *)
  sa_nonzero : ∀ t a, t ∈ w.*1 → own_amount_is t a → ¬ (dec_value (a_quantity a) == 0)%Q;
}.
(** The payment as the journal should show it. *)
Definition payment (x : transaction * option transaction) : transaction_postings :=
  joined (transaction_postings_of x.1,
          (λ t', (transaction_postings_of t', tp_posts (transaction_postings_of t'))) <$> x.2).

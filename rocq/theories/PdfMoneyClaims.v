(** Specification vocabulary for C134: money texts of a PDF statement. *)
From Verif Require Import MergeClaims.
From Verif Require Import Base Types ImportClaims NwCsvModel PdfModel PdfClaims.
From Coq Require Import QArith.
Local Open Scope nat_scope.

(** [s] is digits, a dot and digits, at most 28 digits, with commas anywhere; [q] is
    the number written. *)
Definition money_text (s : str) (q : Q) : Prop :=
  ∃ P F : str, digits P ∧ digits F ∧ length P + length F ≤ 28 ∧
    filter (λ c, c ≠ 44%N) s = P ++ 46%N :: F ∧ (q == text_value P F)%Q.
(** What [Decimal::from_str] is documented to do with such a text without commas
    (28 digits always fit a mantissa of 96 bits). *)
Definition reads_plain (E : pdf_env) : Prop :=
  ∀ P F : str, digits P → digits F → length P + length F ≤ 28 →
    ∃ q, pe_decimal E (P ++ 46%N :: F) = Some q ∧ d_neg q = false ∧ (dec_value q == text_value P F)%Q.
(** The amount of a posting, a balance: so many pounds. *)
Definition pounds (a : amount) (q : Q) : Prop :=
  a_commodity a = Commodity (s2l "GBP") PosLeft ∧ (dec_value (a_quantity a) == q)%Q.
Definition posts_pounds (p : posting) (q : Q) : Prop := ∃ a, posting_is p (p_account p) a ∧ pounds a q.
(** The group of lines has a date, a payment or a receipt and texts that can be read. *)
Record readable_group (E : pdf_env) (g : group) : Prop := {
  rg_date : is_Some (tl_date g.1);
  rg_amount : ∃ s q, money_text s q ∧
    ((tl_receipt g.1 = Some s ∧ tl_payment g.1 = None) ∨ (tl_payment g.1 = Some s ∧ tl_receipt g.1 = None));
  rg_effective : ∀ l, l ∈ g.2 → effective_line l → is_Some (pe_effective E (tl_detail l));
  rg_balances : ∀ s, s ∈ omap tl_balance (group_lines g) → ∃ q, money_text s q;
}.

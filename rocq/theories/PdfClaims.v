(** Specification vocabulary for PDF statements (C65, C66, C76-C81). *)
From Verif Require Import MergeClaims.
From Verif Require Import Base Types SpecBase CommentModel Sha1 FingerprintModel NwCsvModel PaypalModel
  CommentClaims FingerprintClaims ImportClaims OcrModel PdfModel.
From Coq Require Import QArith.
Local Open Scope nat_scope.

(** ** Tables *)
(** The texts of the words of [l] that overlap the column. *)
Definition cell_words (b : bounds) (l : line) : list str :=
  wd_text <$> filter (λ w, (wd_left w < bo_max b ∧ bo_min b < wd_left w + wd_width w)%Z) (ln_words l).
Definition cell (b : bounds) (l : line) : str := join (s2l " ") (cell_words b l).
Definition opt_cell (b : bounds) (l : line) : option str := if decide (cell b l = []) then None else Some (cell b l).
(** The header of a table: the words Date, Details, Payments, Receipts, Balance
    first in the line. *)
Definition is_header (l : line) (c : columns) : Prop :=
  ∃ w0 w1 w2 w3 w4 rest, ln_words l = w0 :: w1 :: w2 :: w3 :: w4 :: rest ∧
    wd_text <$> [w0; w1; w2; w3; w4] = [s2l "Date"; s2l "Details"; s2l "Payments"; s2l "Receipts"; s2l "Balance"] ∧
    co_date c = Bounds (wd_left w0) (wd_left w0 + wd_width w0) ∧ co_details c = Bounds (wd_left w1) (wd_left w2) ∧
    co_payments c = Bounds (wd_left w2) (wd_left w3) ∧ co_receipts c = Bounds (wd_left w3) (wd_left w4) ∧
    co_balance c = Bounds (wd_left w4) (wd_left w4 + wd_width w4).
(** The table in a paragraph: [c] its columns, [ls] the lines below its first header. *)
Definition table_in (p : paragraph) (c : columns) (ls : list line) : Prop :=
  ∃ above h, pa_lines p = above ++ h :: ls ∧ is_header h c ∧ ∀ l c', l ∈ above → ¬ is_header l c'.

Definition date_cell (c : columns) (l : line) : list str := cell_words (co_date c) l.
(** The year that holds at line [k]: the last one given above. *)
Definition year_at (E : pdf_env) (c : columns) (ls : list line) (k : nat) (y : Z) : Prop :=
  ∃ i l w, i < k ∧ ls !! i = Some l ∧ date_cell c l = [w] ∧ pe_year E w = Some y ∧
    ∀ j l', i < j → j < k → ls !! j = Some l' → length (date_cell c l') ≠ 1.
(** The days of the calendar: a year is a leap year if 4 divides it, unless 100 does and 400
    does not. *)
Definition leap (y : Z) : Prop := (4 | y)%Z ∧ ((100 | y)%Z → (400 | y)%Z).
Definition valid_date (y : Z) (m d : N) : Prop :=
  (1 ≤ m ≤ 12)%N ∧ (1 ≤ d)%N ∧
  ((d ≤ 28)%N ∨ (m = 2%N ∧ d = 29%N ∧ leap y) ∨ (m ≠ 2%N ∧ (d ≤ 30)%N) ∨ (m ∈ [1; 3; 5; 7; 8; 10; 12]%N ∧ d = 31%N)).
(** The date given in line [k]. *)
Definition date_given (E : pdf_env) (c : columns) (ls : list line) (k : nat) (dt : date) : Prop :=
  ∃ l day month y m d, ls !! k = Some l ∧ date_cell c l = [day; month] ∧ pe_day E day = Some d ∧
    pe_month E month = Some m ∧ year_at E c ls k y ∧ valid_date y m d ∧ dt = (y, m, d).
(** The date that holds at line [k]: the last one given. *)
Definition date_at (E : pdf_env) (c : columns) (ls : list line) (k : nat) (dt : date) : Prop :=
  ∃ j, j ≤ k ∧ date_given E c ls j dt ∧
    ∀ i l', j < i → i ≤ k → ls !! i = Some l' → length (date_cell c l') ≠ 2.
(** The date cell of line [k] can be read. *)
Definition date_readable (E : pdf_env) (c : columns) (ls : list line) (k : nat) (l : line) : Prop :=
  date_cell c l = [] ∨
  (∃ w y, date_cell c l = [w] ∧ pe_year E w = Some y ∧ (1980 ≤ y ≤ 2100)%Z) ∨
  (∃ dt, date_given E c ls k dt).
(** Lines with a year only and lines without details are left out. *)
Definition line_kept (c : columns) (l : line) : Prop := length (date_cell c l) ≠ 1 ∧ cell (co_details c) l ≠ [].
#[export] Instance line_kept_dec c l : Decision (line_kept c l).
Proof. unfold line_kept. apply _. Defined.
Definition line_read (E : pdf_env) (c : columns) (ls : list line) (k : nat) (l : line) (r : trn_line) : Prop :=
  (∀ d, tl_date r = Some d ↔ date_at E c ls k d) ∧ tl_detail r = cell (co_details c) l ∧
  tl_payment r = opt_cell (co_payments c) l ∧ tl_receipt r = opt_cell (co_receipts c) l ∧
  tl_balance r = opt_cell (co_balance c) l ∧ tl_top r = ln_top l ∧ tl_height r = ln_height l.
(** [rs] are what the lines [ls] of a table hold. *)
Definition table_reads (E : pdf_env) (c : columns) (ls : list line) (rs : list trn_line) : Prop :=
  (∀ k l, ls !! k = Some l → date_readable E c ls k l) ∧
  Forall2 (λ kl, line_read E c ls kl.1 kl.2) (filter (λ kl, line_kept c kl.2) (imap pair ls)) rs.

Definition doc_paragraphs (doc : document) : list paragraph := doc ≫= λ p, pg_blocks p ≫= bk_paragraphs.
(** The tables of the document: at most one in a paragraph. *)
Definition doc_tables (doc : document) (tabs : list (columns * list line)) : Prop :=
  ∃ os, Forall2 (λ p o, match o with Some (c, ls) => table_in p c ls | None => ∀ c ls, ¬ table_in p c ls end)
      (doc_paragraphs doc) os ∧ tabs = omap id os.

(** ** Lines of a statement *)
(** A line with money in or out starts a transaction, other lines continue one. *)
Definition starts (l : trn_line) : Prop := tl_payment l ≠ None ∨ tl_receipt l ≠ None.
Definition continues (l : trn_line) : Prop := tl_payment l = None ∧ tl_receipt l = None.
(** The lines of one transaction. *)
Definition group : Type := trn_line * list trn_line.
Definition group_lines (g : group) : list trn_line := g.1 :: g.2.
(** [ls] are the lines [skip] before the first transaction and the groups [gs]. *)
Definition grouped (ls skip : list trn_line) (gs : list group) : Prop :=
  ls = skip ++ (gs ≫= group_lines) ∧ Forall continues skip ∧
  Forall (λ g, starts g.1 ∧ Forall continues g.2) gs.

(** There is a blank line between [a] and [b]. *)
Definition gap (a b : trn_line) : Prop := (tl_top a + 2 * tl_height a < tl_top b)%Z.
(** The lines of a table before the first blank one. *)
Definition before_gap (ls used : list trn_line) : Prop :=
  ∃ rest, ls = used ++ rest ∧
    (∀ i a b, used !! i = Some a → used !! S i = Some b → ¬ gap a b) ∧
    (rest = [] ∨ ∃ a b rest', last used = Some a ∧ rest = b :: rest' ∧ gap a b).
(** The lines of the document that are read, in order. *)
Definition statement_lines (E : pdf_env) (doc : document) (ls : list trn_line) : Prop :=
  ∃ tabs lss used, doc_tables doc tabs ∧ Forall2 (λ t, table_reads E t.1 t.2) tabs lss ∧
    Forall2 before_gap lss used ∧ ls = mjoin used.

(** ** Transactions *)
(** Commas are ignored. *)
Definition reads_amount (E : pdf_env) (s : str) (a : amount) : Prop :=
  pe_decimal E (filter (λ c, c ≠ 44%N) s) = Some (a_quantity a) ∧ a_commodity a = Commodity (s2l "GBP") PosLeft.
Definition effective_line (l : trn_line) : Prop := ∃ x, tl_detail l = s2l "Effective Date " ++ x.
#[export] Instance effective_line_dec l : Decision (effective_line l).
Proof. apply (decide (prefix (s2l "Effective Date ") (tl_detail l))). Defined.
Definition group_description (g : group) : str :=
  join (s2l " ") (tl_detail g.1 :: filter (λ d, d ≠ []) (tl_detail <$> filter (λ l, ¬ effective_line l) g.2)).
(** The amount of the own posting: positive for receipts. *)
Definition group_amount (E : pdf_env) (l : trn_line) (a : amount) : Prop :=
  ∃ s b, reads_amount E s b ∧ d_neg (a_quantity b) = false ∧
    ((tl_receipt l = Some s ∧ tl_payment l = None ∧ a = b) ∨
     (tl_payment l = Some s ∧ tl_receipt l = None ∧ a = Amount (dec_neg (a_quantity b)) (a_commodity b))).
(** What is read from a group of lines: the amount, effective dates, balances. *)
Record group_reads (E : pdf_env) (g : group) (d : date) (a : amount) (es : list date) (bs : list amount) : Prop := {
  gr_date : tl_date g.1 = Some d;
  gr_amount : group_amount E g.1 a;
  gr_effective : Forall2 (λ l e, pe_effective E (tl_detail l) = Some e) (filter effective_line g.2) es;
  gr_balances : Forall2 (reads_amount E) (omap tl_balance (group_lines g)) bs;
}.
(** The transaction made of a group: later effective dates and balances replace
    earlier ones. *)
Definition group_transaction (E : pdf_env) (g : group) (t : transaction) : Prop :=
  ∃ d a es bs own peer b acct, group_reads E g d a es bs ∧
    t_date t = d ∧ t_effective_date t = last es ∧ t_description t = group_description g ∧
    t_status t = None ∧ t_code t = None ∧ t_comment t = None ∧
    t_postings t = [own; peer] ∧
    posting_is own (s2l "assets:unknown") a ∧ p_balance own = BalAmount <$> last bs ∧
    posting_is peer acct b ∧ opposite a b ∧ peer_account_spec a acct ∧ p_balance peer = None.

(** ** Sequence numbers *)
(** Equal values are next to each other. *)
Definition together {A} (l : list A) : Prop :=
  ∀ i j k x, i < j → j < k → l !! i = Some x → l !! k = Some x → l !! j = Some x.
(** Sequence numbers of the groups: one more than that of the transaction before
    if the line just before has the same date, otherwise 0. *)
Fixpoint sequence (prev : option date) (n : nat) (gs : list group) : list nat :=
  match gs with
  | [] => []
  | g :: gs => let n := if decide (tl_date g.1 = prev) then S n else 0 in
      n :: sequence (default (tl_date g.1) (tl_date <$> last g.2)) n gs
  end.
(** What is hashed for a posting of [t], transaction number [n]. *)
Definition pdf_message (t : transaction) (n : nat) (account : str) (a : amount) : list N :=
  with_amount a (with_str account (with_str (t_description t) (with_i32 (Z.of_nat n) (with_date (t_date t) [])))).
Definition posting_message (t : transaction) (n : nat) (m : list N) : Prop :=
  ∃ p a, p ∈ t_postings t ∧ posting_is p (p_account p) a ∧ m = pdf_message t n (p_account p) a.
(** Two different messages hashed for the import have the same digest. *)
Definition pdf_collides (ts : list transaction) (ns : list nat) : Prop :=
  ∃ i j t t' n n' m m', ts !! i = Some t ∧ ts !! j = Some t' ∧ ns !! i = Some n ∧ ns !! j = Some n' ∧
    posting_message t n m ∧ posting_message t' n' m' ∧ sha1_collision m m'.
Definition env_ok (E : pdf_env) : Prop := ∀ s q, pe_decimal E s = Some q → dec_ok q.

(** ** The account *)
Definition digit_text (n : nat) (s : str) : Prop := length s = n ∧ ∀ c, c ∈ s → rx_digit c = true.
(** The line starts with "Account Number 12-34-56 12345678". *)
Definition names_account (l : line) (name : str) : Prop :=
  ∃ w0 w1 w2 w3 rest a b c, ln_words l = w0 :: w1 :: w2 :: w3 :: rest ∧
    wd_text w0 = s2l "Account" ∧ wd_text w1 = s2l "Number" ∧
    digit_text 2 a ∧ digit_text 2 b ∧ digit_text 2 c ∧ wd_text w2 = a ++ s2l "-" ++ b ++ s2l "-" ++ c ∧
    digit_text 8 (wd_text w3) ∧ name = wd_text w2 ++ s2l " " ++ wd_text w3.
Definition doc_lines (doc : document) : list line :=
  doc_paragraphs doc ≫= pa_lines.
Definition account_is (doc : document) (name : str) : Prop :=
  ∃ above l below, doc_lines doc = above ++ l :: below ∧ names_account l name ∧
    ∀ l' n', l' ∈ above → ¬ names_account l' n'.

(** ** Columns *)
(** Some part of the word is between the edges of the column. *)
Definition in_column (b : bounds) (w : word) : Prop := (wd_left w < bo_max b ∧ bo_min b < wd_left w + wd_width w)%Z.
(** The edge [x] does not cut the word. *)
Definition clear_of (x : Z) (w : word) : Prop := (wd_left w + wd_width w ≤ x ∨ x ≤ wd_left w)%Z.

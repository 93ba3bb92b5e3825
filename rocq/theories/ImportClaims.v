(** Specification vocabulary for the CSV importers (C43-C52). *)
From Verif Require Import MergeClaims.
From Verif Require Import Base Types SpecBase CommentModel Sha1 FingerprintModel NwCsvModel PaypalModel
  CommentClaims FingerprintClaims.
From Coq Require Import QArith.
Local Open Scope nat_scope.

(** ** Nationwide statements *)
(** The two layouts of statements. *)
Inductive layout := FiveColumns | SixColumns.
Definition header_of (l : layout) : csv_record :=
  match l with
  | FiveColumns => [s2l "Date"; s2l "Transactions"; s2l "Location"; s2l "Paid out"; s2l "Paid in"]
  | SixColumns =>
      [s2l "Date"; s2l "Transaction type"; s2l "Description"; s2l "Paid out"; s2l "Paid in"; s2l "Balance"]
  end.
(** The money in a cell: none if it is empty. *)
Definition reads_money (s : str) (x : option amount) : Prop :=
  (s = [] ∧ x = None) ∨ ∃ a, gbp_value s = Ok a ∧ x = Some a.
(** The row of cells [row] is the record [r]. *)
Definition read_row (pd : date_parser) (l : layout) (row : csv_record) (r : nw_record) : Prop :=
  match l, r with
  | FiveColumns, Five x => ∃ d po pi rest,
      row = d :: r5_transactions x :: r5_location x :: po :: pi :: rest ∧
      pd d = Some (r5_date x) ∧ reads_money po (r5_paid_out x) ∧ reads_money pi (r5_paid_in x)
  | SixColumns, Six x => ∃ d po pi b rest,
      row = d :: r6_type x :: r6_description x :: po :: pi :: b :: rest ∧
      pd d = Some (r6_date x) ∧ reads_money po (r6_paid_out x) ∧ reads_money pi (r6_paid_in x) ∧
      gbp_value b = Ok (r6_balance x)
  | _, _ => False
  end.
(** The statement is of the account [name] and its rows read as [rs]. *)
Definition statement_reads (pd : date_parser) (records : list csv_record) (name : str)
    (rs : list nw_record) : Prop :=
  ∃ rest b a l rows, records = (s2l "Account Name:" :: name :: rest) :: b :: a :: header_of l :: rows ∧
    Forall2 (read_row pd l) rows rs.
(** The two lines with balances, whose amounts are not used. *)
Definition balances_read (records : list csv_record) : Prop :=
  ∃ n v1 r1 x1 v2 r2 x2 rest,
    records = n :: (s2l "Account Balance:" :: v1 :: r1) :: (s2l "Available Balance:" :: v2 :: r2) :: rest ∧
    gbp_value v1 = Ok x1 ∧ gbp_value v2 = Ok x2.

Definition paid_in (r : nw_record) : option amount :=
  match r with Five r => r5_paid_in r | Six r => r6_paid_in r end.
Definition paid_out (r : nw_record) : option amount :=
  match r with Five r => r5_paid_out r | Six r => r6_paid_out r end.

Definition one_side (r : nw_record) : Prop :=
  (paid_in r = None ∧ paid_out r ≠ None) ∨ (paid_in r ≠ None ∧ paid_out r = None).

(** Length of the run of dates equal to [d] at the front. *)
Fixpoint run_length (d : date) (l : list date) : nat :=
  match l with
  | [] => 0
  | x :: l => if decide (x = d) then S (run_length d l) else 0
  end.
(** The number of rows directly before row [k] that have its date. *)
Definition day_number (ds : list date) (k : nat) : nat :=
  match ds !! k with Some d => run_length d (reverse (take k ds)) | None => 0 end.
(** All rows of one date are next to each other. *)
Definition contiguous (ds : list date) : Prop :=
  ∀ i j k d, i < j → j < k → ds !! i = Some d → ds !! k = Some d → ds !! j = Some d.

(** Fields as Rust and the CSV reader provide them, without line breaks. *)
Definition fields_ok (records : list csv_record) : Prop :=
  ∀ r f, r ∈ records → f ∈ r → str_ok f ∧ newline ∉ f.
Definition parser_ok (pd : date_parser) : Prop := ∀ s d, pd s = Some d → date_ok d.

(** The messages hashed for row [r], the [i]th of its day. *)
Definition row_message (r : nw_record) (i : nat) (m : list N) : Prop :=
  match r with
  | Five r => ∃ s, m = five_message r (Z.of_nat i) s
  | Six r => (∃ s, m = six_message r (Z.of_nat i) s) ∨
      ∃ s a, self_amount_of (r6_paid_in r) (r6_paid_out r) = Ok a ∧
        m = legacy_message r (Z.of_nat i) (pick s (self_and_peer_account_amount a (s2l "assets:unknown")))
  end.
(** Two different messages hashed for the statement have the same digest. *)
Definition statement_collides (rs : list nw_record) : Prop :=
  ∃ i j r r' m m', rs !! i = Some r ∧ rs !! j = Some r' ∧
    row_message r (day_number (rec_date <$> rs) i) m ∧
    row_message r' (day_number (rec_date <$> rs) j) m' ∧ sha1_collision m m'.

(** The postings of imported transactions, with comments read from their text,
    as [merge] sees them. *)
Definition as_merged (ts : list transaction) : list transaction_postings :=
  transaction_postings_of <$> ts.

(** ** Amounts *)
Definition posting_value (c : commodity) (p : posting) : Q :=
  match p_amount p with
  | Some a => if decide (a_commodity (pa_amount a) = c) then dec_value (a_quantity (pa_amount a)) else 0
  | None => 0
  end.
Definition sum_value (c : commodity) (ps : list posting) : Q :=
  foldr (λ p s, (posting_value c p + s)%Q) 0%Q ps.
(** All postings have plain amounts (no price), and they sum to zero in every
    commodity. *)
Definition balanced (t : transaction) : Prop :=
  (∀ p, p ∈ t_postings t → ∃ a, p_amount p = Some (PostingAmount a None None)) ∧
  ∀ c, (sum_value c (t_postings t) == 0)%Q.
(** [a] is the amount of posting [p]. *)
Definition posting_is (p : posting) (account : str) (a : amount) : Prop :=
  p_account p = account ∧ p_amount p = Some (PostingAmount a None None).
(** [b] is [a] with the sign changed. *)
Definition opposite (a b : amount) : Prop :=
  a_commodity b = a_commodity a ∧ (dec_value (a_quantity b) == - dec_value (a_quantity a))%Q.
Definition tagged (p : posting) (t : str) : Prop := has_tag (posting_internal_of p) t.
Definition fingerprinted (p : posting) : Prop := ∃ f, has_fp (posting_internal_of p) f.

(** The account of the peer posting follows the sign of the own amount. *)
Definition peer_account_spec (a : amount) (acct : str) : Prop :=
  (dec_value (a_quantity a) < 0 → acct = s2l "expenses:unknown")%Q ∧
  (0 < dec_value (a_quantity a) → acct = s2l "income:unknown")%Q ∧
  (acct = s2l "expenses:unknown" ∨ acct = s2l "income:unknown").
(** Own and peer posting of a record. *)
Definition sides (own peer : posting) : Prop :=
  ∃ a b acct, posting_is own (s2l "assets:unknown") a ∧ posting_is peer acct b ∧
    opposite a b ∧ peer_account_spec a acct ∧
    tagged own (s2l "unknown-account") ∧ tagged peer (s2l "unknown-account").
Definition row_description (r : nw_record) : str :=
  match r with
  | Five x => r5_transactions x ++ (if decide (r5_location x = []) then [] else s2l " @ " ++ r5_location x)
  | Six x => r6_description x
  end.
(** What a row of a statement becomes. *)
Definition row_result (r : nw_record) (t : transaction) : Prop :=
  ∃ own peer a, t_postings t = [own; peer] ∧ t_date t = rec_date r ∧ t_description t = row_description r ∧
    posting_is own (s2l "assets:unknown") a ∧
    p_balance own = match r with Five _ => None | Six r => Some (BalAmount (r6_balance r)) end ∧
    ((paid_in r = Some a ∧ paid_out r = None) ∨
     (paid_in r = None ∧ ∃ b, paid_out r = Some b ∧ opposite b a)).

(** ** Money texts *)
Definition digits (s : str) : Prop := s ≠ [] ∧ ∀ c, c ∈ s → (48 ≤ c ≤ 57)%N.
(** Number denoted by a text of digits. *)
Definition number (s : str) : N := foldl (λ n c, 10 * n + (c - 48))%N 0%N s.
Definition signed (neg : bool) (q : Q) : Q := if neg then Qopp q else q.
Definition sign_text (neg : bool) : str := if neg then [MINUS] else [].
(** The number written [P.F]. *)
Definition text_value (P F : str) : Q :=
  (inject_Z (Z.of_N (number P)) + inject_Z (Z.of_N (number F)) / inject_Z (10 ^ Z.of_nat (length F)))%Q.
(** The text [£P.F], [£-P.F] or [-£P.F] and the number it denotes. *)
Definition denotes (s : str) (q : Q) : Prop :=
  ∃ P F : str, digits P ∧ digits F ∧
    ((s = POUND :: P ++ DOT :: F ∧ q = text_value P F) ∨
     (s = POUND :: MINUS :: P ++ DOT :: F ∧ q = Qopp (text_value P F)) ∨
     (s = MINUS :: POUND :: P ++ DOT :: F ∧ q = Qopp (text_value P F))).
(** The same fingerprints. *)
Definition same_fps (p q : posting) : Prop :=
  ∀ f, has_fp (posting_internal_of p) f ↔ has_fp (posting_internal_of q) f.
(** ** PayPal *)
Definition row_instant (db : TzModel.tz_db) (r : pp_row) (t : instant) : Prop :=
  ∃ o, TzModel.abbr_to_tz db (pr_time_zone r) = Some o ∧ t = local_instant (pr_date r) (pr_time r) o.
(** [gs] are the runs of rows with the same instant: non-empty, uniform, and
    neighbours differ. *)
Record runs (db : TzModel.tz_db) (rows : list pp_row) (gs : list (instant * list pp_row)) : Prop := {
  rn_all : mjoin (snd <$> gs) = rows;
  rn_nonempty : ∀ t g, (t, g) ∈ gs → g ≠ [];
  rn_uniform : ∀ t g r, (t, g) ∈ gs → r ∈ g → row_instant db r t;
  rn_maximal : ∀ i t g t' g', gs !! i = Some (t, g) → gs !! S i = Some (t', g') → t ≠ t';
}.
Definition row_amount (r : pp_row) : amount := Amount (pr_amount r) (Commodity (pr_currency r) PosLeft).
Definition row_balance (r : pp_row) : amount := Amount (pr_balance r) (Commodity (pr_currency r) PosLeft).
Definition row_status (r : pp_row) : status :=
  match pr_status r with PpCompleted => Cleared | PpPending => Pending end.
(** The first name present in a group. *)
Definition first_name (g : list pp_row) (n : str) : Prop :=
  ∃ i r, g !! i = Some r ∧ pr_name r = Some n ∧ ∀ j r', j < i → g !! j = Some r' → pr_name r' = None.
(** The two postings of a row. *)
Definition row_postings (r : pp_row) (own peer : posting) : Prop :=
  posting_is own (s2l "assets:unknown") (row_amount r) ∧
  p_balance own = Some (BalAmount (row_balance r)) ∧ p_status own = Some (row_status r) ∧
  (∃ a, opposite (row_amount r) a ∧ p_amount peer = Some (PostingAmount a None None)) ∧
  p_balance peer = None ∧ p_status peer = Some (row_status r).
(** The transaction made of a group. *)
Definition group_result (tz : instant → date) (tg : instant * list pp_row) (t : transaction) : Prop :=
  t_date t = tz tg.1 ∧ first_name tg.2 (t_description t) ∧
  length (t_postings t) = 2 * length tg.2 ∧
  ∀ i r, tg.2 !! i = Some r → ∃ own peer,
    t_postings t !! (2 * i) = Some own ∧ t_postings t !! (2 * i + 1) = Some peer ∧ row_postings r own peer.
(** Rows as Rust and the CSV reader provide them, names, types and receipt ids
    without line breaks; positions are [usize]. *)
Definition rows_ok (rows : list pp_row) : Prop :=
  (N.of_nat (length rows) < 2 ^ 64)%N ∧
  ∀ r, r ∈ rows → pp_row_ok r ∧ newline ∉ pr_type r ∧
    opt_ok (λ s, newline ∉ s) (pr_name r) ∧ opt_ok (λ s, newline ∉ s) (pr_receipt_id r).
(** Two different messages hashed for rows of the groups have the same digest. *)
Definition groups_collide (gs : list (instant * list pp_row)) : Prop :=
  ∃ k k' i i' t t' g g' r r' s s', gs !! k = Some (t, g) ∧ gs !! k' = Some (t', g') ∧
    g !! i = Some r ∧ g' !! i' = Some r' ∧ sha1_collision (pp_message r i s) (pp_message r' i' s').

(** ** Timezones *)
(** [s] writes the offset of [secs] seconds. *)
Definition utc_offset (s : str) (secs : Z) : Prop :=
  ∃ (positive : bool) (H M : str), digits H ∧ length H = 2%nat ∧ digits M ∧ length M = 2%nat ∧
    (s = s2l "UTC" ++ s2l (if positive then "+" else "-") ++ H ++ s2l ":" ++ M ∨
     s = s2l "UTC" ++ s2l (if positive then "+" else "-") ++ H ∧ M = s2l "00") ∧
    (number M ≤ 59)%N ∧
    let a := (Z.of_N (number H) * 3600 + Z.of_N (number M) * 60)%Z in
    (a < 86400)%Z ∧ secs = (if positive then a else - a)%Z.


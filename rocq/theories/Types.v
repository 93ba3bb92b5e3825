(** Data types: decimals, the types of the ledger-parser crate, and the
    internal wrappers of the application. *)
From stdpp Require Import gmap list.
From Verif Require Import Base.
Open Scope N_scope.

(** rust_decimal::Decimal (external): sign bit, scale, 96 bit mantissa.
    The value is (-1)^neg * mantissa / 10^scale.  Zero may carry a sign bit. *)
Record decimal := Dec { d_neg : bool; d_scale : N; d_mant : N }.

(** Signed mantissa. *)
Definition d_signed (d : decimal) : Z :=
  if d_neg d then (- Z.of_N (d_mant d))%Z else Z.of_N (d_mant d).

(** [PartialEq for Decimal]: numeric comparison. *)
Definition dec_eqb (a b : decimal) : bool :=
  (d_signed a * 10 ^ Z.of_N (d_scale b) =? d_signed b * 10 ^ Z.of_N (d_scale a))%Z.

(** [Neg for Decimal]: flips the sign bit. *)
Definition dec_neg (d : decimal) : decimal := Dec (negb (d_neg d)) (d_scale d) (d_mant d).

(** ledger_parser 5.1 (external) model types; derived [PartialEq] is the
    [..._eqb] function, which only differs from structural equality in the
    comparison of decimals. *)
Inductive commodity_position := PosLeft | PosRight.
Record commodity := Commodity { cm_name : str; cm_pos : commodity_position }.
Record amount := Amount { a_quantity : decimal; a_commodity : commodity }.
Inductive price := PriceUnit (a : amount) | PriceTotal (a : amount).
Record posting_amount := PostingAmount {
  pa_amount : amount; pa_lot_price : option price; pa_price : option price }.
Inductive balance := BalZero | BalAmount (a : amount).
Inductive reality := Real | BalancedVirtual | UnbalancedVirtual.
Inductive status := Pending | Cleared.

Definition str_eqb (a b : str) : bool := bool_decide (a = b).
Definition pos_eqb (a b : commodity_position) : bool :=
  match a, b with PosLeft, PosLeft | PosRight, PosRight => true | _, _ => false end.
Definition commodity_eqb (a b : commodity) : bool :=
  str_eqb (cm_name a) (cm_name b) && pos_eqb (cm_pos a) (cm_pos b).
Definition amount_eqb (a b : amount) : bool :=
  dec_eqb (a_quantity a) (a_quantity b) && commodity_eqb (a_commodity a) (a_commodity b).
Definition price_eqb (a b : price) : bool :=
  match a, b with
  | PriceUnit a, PriceUnit b | PriceTotal a, PriceTotal b => amount_eqb a b
  | _, _ => false
  end.
Definition opt_eqb {A} (eqb : A → A → bool) (a b : option A) : bool :=
  match a, b with
  | Some a, Some b => eqb a b
  | None, None => true
  | _, _ => false
  end.
Definition posting_amount_eqb (a b : posting_amount) : bool :=
  amount_eqb (pa_amount a) (pa_amount b)
  && opt_eqb price_eqb (pa_lot_price a) (pa_lot_price b)
  && opt_eqb price_eqb (pa_price a) (pa_price b).
Definition balance_eqb (a b : balance) : bool :=
  match a, b with
  | BalZero, BalZero => true
  | BalAmount a, BalAmount b => amount_eqb a b
  | _, _ => false
  end.

Record posting := Posting {
  p_account : str; p_reality : reality; p_amount : option posting_amount;
  p_balance : option balance; p_status : option status; p_comment : option str }.

Record transaction := Transaction {
  t_comment : option str; t_date : date; t_effective_date : option date;
  t_status : option status; t_code : option str; t_description : str;
  t_postings : list posting }.

(** Items of a ledger; the payload of the unsupported items is irrelevant. *)
Inductive ledger_item := EmptyLine | ItemTransaction (t : transaction) | OtherItem.
Definition ledger := list ledger_item.

(** src/comment.rs:12-19. *)
Record comment := Comment {
  lines : list str; tags : gset str; value_tags : gmap str str }.

(** src/internal.rs:11-14, 84-87.  In the wrappers the [comment] field of [raw]
    is always [None] (from_transaction / from_posting reset it) and the raw
    transaction has no postings. *)
Record posting_internal := PI { pi_raw : posting; pi_comment : comment }.
Record transaction_internal := TI { ti_raw : transaction; ti_comment : comment }.
(** src/internal.rs:36-39. *)
Record transaction_postings := TP {
  tp_trn : transaction_internal; tp_posts : list posting_internal }.

(** Rust assignments to a single field. *)
Definition set_status (s : option status) (p : posting) : posting :=
  Posting (p_account p) (p_reality p) (p_amount p) (p_balance p) s (p_comment p).
Definition set_balance (b : option balance) (p : posting) : posting :=
  Posting (p_account p) (p_reality p) (p_amount p) b (p_status p) (p_comment p).
Definition set_account (a : str) (p : posting) : posting :=
  Posting a (p_reality p) (p_amount p) (p_balance p) (p_status p) (p_comment p).
Definition set_pcomment (c : option str) (p : posting) : posting :=
  Posting (p_account p) (p_reality p) (p_amount p) (p_balance p) (p_status p) c.
Definition set_tcomment (c : option str) (t : transaction) : transaction :=
  Transaction c (t_date t) (t_effective_date t) (t_status t) (t_code t)
    (t_description t) (t_postings t).
Definition set_tpostings (ps : list posting) (t : transaction) : transaction :=
  Transaction (t_comment t) (t_date t) (t_effective_date t) (t_status t) (t_code t)
    (t_description t) ps.
Definition set_description (d : str) (t : transaction) : transaction :=
  Transaction (t_comment t) (t_date t) (t_effective_date t) (t_status t) (t_code t)
    d (t_postings t).
Definition set_tags (f : gset str → gset str) (c : comment) : comment :=
  Comment (lines c) (f (tags c)) (value_tags c).
Definition set_value_tags (f : gmap str str → gmap str str) (c : comment) : comment :=
  Comment (lines c) (tags c) (f (value_tags c)).

(** src/tags.rs:1-26. *)
Definition ACCOUNT : str := (s2l "account").
Definition BANK : str := (s2l "bank").
Definition SEQ : str := (s2l "seq").
Definition IMPORT_PEER : str := (s2l "import-peer").
Definition IMPORT_SELF : str := (s2l "import-self").
Definition UNKNOWN_ACCOUNT : str := (s2l "unknown-account").
Definition CANDIDATE_FP_PREFIX : str := (s2l "candidate-").
Definition FINGERPRINT_PREFIX : str := (s2l "fp-").
Definition TRANSACTION_SOURCE_KEY : str := (s2l "source-file").

(** src/accounts.rs:1-3. *)
Definition ASSETS_UNKNOWN : str := (s2l "assets:unknown").
Definition EXPENSES_UNKNOWN : str := (s2l "expenses:unknown").
Definition INCOME_UNKNOWN : str := (s2l "income:unknown").

(** src/fingerprint.rs:12-14. *)
Definition is_fingerprint (tag : str) : bool := starts_with FINGERPRINT_PREFIX tag.
(** The test at src/merge/posting.rs:190. *)
Definition is_candidate (tag : str) : bool := starts_with CANDIDATE_FP_PREFIX tag.

(** Decidable equality of the types, for examples. *)
#[export] Instance decimal_eq_dec : EqDecision decimal. Proof. solve_decision. Defined.
#[export] Instance position_eq_dec : EqDecision commodity_position. Proof. solve_decision. Defined.
#[export] Instance commodity_eq_dec : EqDecision commodity. Proof. solve_decision. Defined.
#[export] Instance amount_eq_dec : EqDecision amount. Proof. solve_decision. Defined.
#[export] Instance price_eq_dec : EqDecision price. Proof. solve_decision. Defined.
#[export] Instance posting_amount_eq_dec : EqDecision posting_amount. Proof. solve_decision. Defined.
#[export] Instance balance_eq_dec : EqDecision balance. Proof. solve_decision. Defined.
#[export] Instance reality_eq_dec : EqDecision reality. Proof. solve_decision. Defined.
#[export] Instance status_eq_dec : EqDecision status. Proof. solve_decision. Defined.
#[export] Instance posting_eq_dec : EqDecision posting. Proof. solve_decision. Defined.
#[export] Instance transaction_eq_dec : EqDecision transaction. Proof. solve_decision. Defined.
#[export] Instance ledger_item_eq_dec : EqDecision ledger_item. Proof. solve_decision. Defined.
#[export] Instance comment_eq_dec : EqDecision comment. Proof. solve_decision. Defined.
#[export] Instance posting_internal_eq_dec : EqDecision posting_internal. Proof. solve_decision. Defined.
#[export] Instance transaction_internal_eq_dec : EqDecision transaction_internal. Proof. solve_decision. Defined.
#[export] Instance transaction_postings_eq_dec : EqDecision transaction_postings. Proof. solve_decision. Defined.
#[export] Instance err_eq_dec : EqDecision err. Proof. solve_decision. Defined.
#[export] Instance result_eq_dec {A} `{EqDecision A} : EqDecision (result A). Proof. solve_decision. Defined.

(** Proves a decidable proposition by evaluation in the kernel. *)
Ltac by_compute := lazymatch goal with |- ?P => refine (@bool_decide_unpack P _ _); vm_compute; exact I end.

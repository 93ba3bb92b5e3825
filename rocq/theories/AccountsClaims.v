(** Specification vocabulary for a journal of several bank accounts (C132). *)
From Verif Require Import MergeClaims.
From Verif Require Import Base Types SpecBase CommentModel FingerprintModel NwCsvModel TzModel PaypalModel OcrModel PdfModel
  FingerprintClaims ImportClaims EditClaims WindowClaims StatementClaims PdfClaims PdfDaysClaims NsUseClaims RulesModel RulesClaims PipeClaims AssertClaims.
Local Open Scope nat_scope.

(** A bank account: the options it is imported with, and what happened on it, day by day. *)
Inductive bank_account :=
  | NationwideCsv (pd : date_parser) (o : nw_opts) (name : str) (rows : list (list nw_record))
  | Paypal (tz : instant → date) (db : tz_db) (ns : str) (groups : list (list (instant * list pp_row)))
  | NationwidePdf (P : pdf_env) (o : fp_namespace_opt) (name : str) (ds : list date) (parts : list (list group)).
(** [ts] is the import of some statement of the account for the days [w]. *)
Definition statement_of (a : bank_account) (w : list nat) (ts : list transaction) : Prop :=
  match a with
  | NationwideCsv pd o name rows => nw_statement pd o name rows w ts
  | Paypal tz db ns groups => pp_statement tz db ns groups w ts
  | NationwidePdf P o name ds parts => pdf_statement P o name parts w ts
  end.
(** The days have different dates. *)
Definition by_day (a : bank_account) : Prop :=
  match a with
  | NationwideCsv pd o name rows => parser_ok pd ∧ days rec_date rows
  | Paypal tz db ns groups => days (λ g, tz g.1) groups
  | NationwidePdf P o name ds parts => env_ok P ∧ whole_days ds parts
  end.
(** The namespace of the account's fingerprints. *)
Definition account_namespace (a : bank_account) (ns : str) : Prop :=
  match a with
  | NationwideCsv pd o name rows => chosen (nw_fp_ns o) name ns
  | Paypal tz db ns' groups => ns = ns'
  | NationwidePdf P o name ds parts => chosen o name ns
  end.
(** The hashes tell the payments of the days [w] apart. *)
Definition no_collision (a : bank_account) (w : list nat) (ts : list transaction) : Prop :=
  match a with
  | NationwideCsv pd o name rows => ¬ statement_collides (window rows w)
  | Paypal tz db ns groups => NoDup (window groups w).*1 ∧ ¬ groups_collide (window groups w)
  | NationwidePdf P o name ds parts => (∀ t, t ∈ ts → str_ok (t_description t)) ∧ ¬ pdf_collides ts (sequence None 0 (window parts w))
  end.

(** Rules, or none, between import and merge. *)
Definition treated (R : option (text_env * table)) (tps J : list transaction_postings) : Prop :=
  match R with None => J = tps | Some (X, T) => ruled X T tps J end.
Definition rules_fit (R : option (text_env * table)) : Prop :=
  match R with None => True | Some (_, T) => is_Some (T !! s2l "start") ∧ leaves_fingerprints T end.

(** An account, the namespace of its fingerprints, the rules for it, the days of it
    that are on some statement, and what importing them all from one statement gives. *)
Record history := History { h_account : bank_account; h_namespace : str; h_rules : option (text_env * table);
  h_days : list nat; h_all : list transaction }.
Record history_ok (h : history) : Prop := {
  ho_days : by_day (h_account h);
  ho_ns : account_namespace (h_account h) (h_namespace h);
  ho_rules : rules_fit (h_rules h);
  ho_all : statement_of (h_account h) (h_days h) (h_all h);
  ho_apart : no_collision (h_account h) (h_days h) (h_all h);
}.
(** What all its payments become, without merging. *)
Definition own_journal (h : history) (J : list transaction_postings) : Prop :=
  treated (h_rules h) (as_merged (h_all h)) J.

(** An input of merge: the number of the account, the days on the statement, and the
    transactions. *)
Record input := Input { in_account : nat; in_days : list nat; in_trns : list transaction_postings }.
Definition input_of (hs : list history) (x : input) : Prop :=
  ∃ h ts, hs !! in_account x = Some h ∧ statement_of (h_account h) (in_days x) ts ∧ treated (h_rules h) (as_merged ts) (in_trns x).
Definition statements (inputs : list input) (n : nat) : list (list nat) :=
  in_days <$> filter (λ x, in_account x = n) inputs.
(** Payments of different accounts on the same day do not look alike. *)
Definition not_alike (inputs : list input) : Prop :=
  ∀ x y tp tp' p q, x ∈ inputs → y ∈ inputs → in_account x ≠ in_account y →
    tp ∈ in_trns x → tp' ∈ in_trns y → p ∈ tp_posts tp → q ∈ tp_posts tp' → tp_date tp = tp_date tp' → ¬ soft_match p q.

(** The journal [out] has the transactions of all [Js], each once, by date, those of
    each of the [Js] in their order. *)
Record all_in (Js : list (list transaction_postings)) (out : list transaction_postings) : Prop := {
  ai_once : out ≡ₚ mjoin Js;
  ai_order : ∀ i k a b, i < k → out !! i = Some a → out !! k = Some b → date_leb (tp_date a) (tp_date b) = true;
  ai_each : ∀ J, J ∈ Js → stable_sort (by_key tp_date) J `sublist_of` out;
}.

(** What the bank says of the payments of the days [w], by date. *)
Definition bank_says (a : bank_account) (w : list nat) (es : list bank_entry) : Prop :=
  match a with
  | NationwideCsv pd o name rows => Forall2 nw_entry (stable_sort (by_key rec_date) (window rows w)) es
  | Paypal tz db ns groups => es = pp_entry <$> (stable_sort (by_key (λ g, tz g.1)) (window groups w) ≫= snd)
  | NationwidePdf P o name ds parts => Forall2 (pdf_entry P) (stable_sort (by_key group_date) (window parts w)) es
  end.

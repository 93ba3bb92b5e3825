(** Specification vocabulary for what imported postings say of their rows (C102). *)
From Verif Require Import MergeClaims.
From Verif Require Import Base Types SpecBase CommentModel Sha1 FingerprintModel NwCsvModel PaypalModel
  CommentClaims FingerprintClaims ImportClaims.
Local Open Scope nat_scope.

(** [s] writes the number [n] without leading zeros. *)
Definition numeral (s : str) (n : nat) : Prop :=
  digits s ∧ number s = N.of_nat n ∧ (n ≠ 0 → head s ≠ Some 48%N).
(** The comment of [p], read from its text, has exactly the value tags [vs], their
    values without the white space around them; blank ones are no value tags. *)
Definition values_are (p : posting) (vs : list (str * str)) : Prop :=
  ∀ k v, value_tags (pi_comment (posting_internal_of p)) !! k = Some v ↔ ∃ x, (k, x) ∈ vs ∧ v = trim x ∧ v ≠ [].
(** Besides fingerprints, the comment of [p] has exactly the tags [ts]. *)
Definition other_tags_are (p : posting) (ts : list str) : Prop := ∀ t, ¬ fp_tag t → tagged p t ↔ t ∈ ts.
Definition own_tags (p : posting) : Prop := other_tags_are p [s2l "import-self"; s2l "unknown-account"].
Definition peer_tags (p : posting) : Prop := other_tags_are p [s2l "import-peer"; s2l "unknown-account"].
(** The number of a record within its day, with the namespace. *)
Definition sequence_text (ns : str) (n : nat) (s : str) : Prop := ∃ x, numeral x n ∧ s = ns ++ s2l "-" ++ x.

(** What both postings of a Nationwide CSV row say. *)
Definition nw_details (name : str) (r : nw_record) : list (str * str) :=
  [(s2l "account", name); (s2l "bank", s2l "Nationwide")] ++
  match r with
  | Five x => [(s2l "transactions", r5_transactions x); (s2l "location", r5_location x)]
  | Six x => [(s2l "trn_type", r6_type x)]
  end.
(** What the own and the peer posting of a PayPal row say. *)
Definition optional (k : str) (v : option str) : list (str * str) :=
  match v with Some v => [(k, v)] | None => [] end.
Definition pp_own_details (r : pp_row) : list (str * str) := optional (s2l "receipt_id") (pr_receipt_id r).
Definition pp_peer_details (r : pp_row) : list (str * str) :=
  (s2l "trn_type", pr_type r) :: optional (s2l "trn_name") (pr_name r).

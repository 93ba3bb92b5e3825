(** Specification vocabulary for statements made of whole days (C87-C89). *)
From Verif Require Import MergeClaims.
From Verif Require Import Base Types SpecBase CommentModel FingerprintModel NwCsvModel PaypalModel ImportClaims EditClaims WindowClaims.

(** [ts] is the import of some statement of the account [name] that has the rows of
    the days [w], in some order of days. *)
Definition nw_statement (pd : date_parser) (o : nw_opts) (name : str) (rows : list (list nw_record))
    (w : list nat) (ts : list transaction) : Prop :=
  NoDup w ∧ ∃ ho records ns, hash_order_ok ho ∧ fields_ok records ∧
    statement_reads pd records name (window rows w) ∧ nw_csv_import pd ho o records = Ok (ns, ts).
(** The import of some statement with the rows [rs]. *)
Definition row_statement (pd : date_parser) (o : nw_opts) (name : str) (rs : list nw_record) (ts : list transaction) : Prop :=
  ∃ ho records ns, hash_order_ok ho ∧ fields_ok records ∧
    statement_reads pd records name rs ∧ nw_csv_import pd ho o records = Ok (ns, ts).
(** The same for PayPal, imported with legacy fingerprints (C69): the days are given
    as groups of rows with the same time. *)
Definition pp_statement (tz : instant → date) (db : TzModel.tz_db) (ns : str) (groups : list (list (instant * list pp_row)))
    (w : list nat) (ts : list transaction) : Prop :=
  NoDup w ∧ ∃ ho rows, hash_order_ok ho ∧ rows_ok rows ∧ runs db rows (window groups w) ∧
    pp_import ho true tz db ns rows = Ok ts.

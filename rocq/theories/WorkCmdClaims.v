(** Specification vocabulary for importing statements into files and merging the
    files (C100). *)
From Verif Require Import MergeClaims.
From Verif Require Import Base Types SpecBase CommentModel MergeModel CmdModel FingerprintModel NwCsvModel TzModel PaypalModel
  CmdClaims ImportClaims EditClaims WindowClaims StatementClaims ImporterModel.

(** Successful runs of the import command one after the other, each with its
    importer and output file; the transactions imported by each. *)
Inductive imports (E : env) : world → list (io import * str) → list (list transaction) → world → Prop :=
  | imports_nil w : imports E w [] [] w
  | imports_cons w imp out es ns ts es' runs tss w' :
      imp w = (es, Ok (Import ns ts)) → import_cmd E imp (Path out) false false w = (es', Ok tt) →
      imports E (steps w es') runs tss w' → imports E w ((imp, out) :: runs) (ts :: tss) w'.

(** A statement of whole days, downloaded to a file, and the file to import it to. *)
Record statement_file := StatementFile { sf_order : hash_order; sf_csv : str; sf_out : str; sf_days : list nat }.
(** In world [w] the file of [s] is a Nationwide statement of the account [name] with the days [sf_days s]. *)
Definition nw_file (V : csv_env) (pd : date_parser) (name : str) (rows : list (list nw_record)) (w : world) (s : statement_file) : Prop :=
  hash_order_ok (sf_order s) ∧ NoDup (sf_days s) ∧ ∃ text records,
    w_files w !! sf_csv s = Some text ∧ ce_nationwide V text = Some records ∧ fields_ok records ∧
    statement_reads pd records name (window rows (sf_days s)).
(** The same for PayPal. *)
Definition pp_file (V : csv_env) (db : tz_db) (groups : list (list (instant * list pp_row))) (w : world) (s : statement_file) : Prop :=
  hash_order_ok (sf_order s) ∧ NoDup (sf_days s) ∧ ∃ text rows,
    w_files w !! sf_csv s = Some text ∧ ce_paypal V text = Some rows ∧ rows_ok rows ∧ runs db rows (window groups (sf_days s)).
(** The time zone abbreviations in a file. *)
Definition abbr_file (V : csv_env) (db : tz_db) (w : world) (abbrs : str) : Prop :=
  ∃ text rows, w_files w !! abbrs = Some text ∧ ce_abbr V text = Some rows ∧ tz_from_rows rows = Ok db.

(** What is printed for these transactions is read back. *)
Definition prints_back (E : env) (ts : list transaction) : Prop :=
  e_parse E (e_print E (ledger_from_transactions ts)) = Some (ledger_from_transactions ts).

(** The import command run on such a file: which importer, and which output file. *)
Definition nw_run (E : env) (V : csv_env) (pd : date_parser) (o : nw_opts) (s : statement_file) : io import * str :=
  (nw_importer E V pd (sf_order s) o (Path (sf_csv s)), sf_out s).
Definition pp_run (E : env) (V : csv_env) (tz : instant → date) (ns abbrs : str) (s : statement_file) : io import * str :=
  (pp_importer E V (sf_order s) true tz ns (Path (sf_csv s)) (Path abbrs), sf_out s).

(** The files for C113_command. *)
From stdpp Require Import gmap list.
From Verif Require Import MergeClaims.
From Verif Require Import Base Types SpecBase CommentModel MergeModel CmdModel NwCsvModel PaypalModel CommentClaims FingerprintClaims ImportClaims
  OcrModel PdfModel PdfClaims PiecesClaims ImporterModel PdfWorkClaims.
Local Open Scope nat_scope.

(** In world [w] the file [csv] is a Nationwide statement with the fields [records],
    in which the days are not mixed and no two payments have the same fingerprint. *)
Definition csv_statement (V : csv_env) (pd : date_parser) (w : world) (csv : str) (records : list csv_record) : Prop :=
  ∃ text name rs, w_files w !! csv = Some text ∧ ce_nationwide V text = Some records ∧ parser_ok pd ∧ fields_ok records ∧
    statement_reads pd records name rs ∧ contiguous (rec_date <$> rs) ∧ ¬ statement_collides rs.
(** The tools show the statement [doc] with the payments [ts], in which the days are
    not mixed and no two payments have the same fingerprint. *)
Definition pdf_shown (X : pdf_env) (T : ocr_tools) (doc : document) (ts : list transaction) : Prop :=
  shows T doc ∧ env_ok X ∧ (∀ t, t ∈ ts → str_ok (t_description t)) ∧ ∃ ls skip gs,
    statement_lines X doc ls ∧ grouped ls skip gs ∧ together (tl_date <$> (gs ≫= group_lines)) ∧ ¬ pdf_collides ts (sequence None 0 gs).

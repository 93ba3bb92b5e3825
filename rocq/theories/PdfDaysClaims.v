(** Specification vocabulary for PDF statements made of whole days. *)
From Verif Require Import MergeClaims.
From Verif Require Import Base Types SpecBase FingerprintModel NwCsvModel OcrModel PdfModel PdfClaims WindowClaims.
Local Open Scope nat_scope.

(** A line without its place on the page. *)
Definition unplaced (l : trn_line) : trn_line :=
  TrnLine (tl_date l) (tl_detail l) (tl_payment l) (tl_receipt l) (tl_balance l) 0 0.
Definition unplaced_group (g : group) : group := (unplaced g.1, unplaced <$> g.2).
(** [parts] are the transactions of different days; each of their lines is under the
    date of its day. *)
Definition whole_days (ds : list date) (parts : list (list group)) : Prop :=
  NoDup ds ∧ length ds = length parts ∧
  ∀ k d D g l, ds !! k = Some d → parts !! k = Some D → g ∈ D → l ∈ group_lines g → tl_date l = Some d.
(** [ts] is the import of some PDF statement of the account [name] that lists the
    transactions of the days [w], in some order of days, on any number of pages. *)
Definition pdf_statement (E : pdf_env) (o : fp_namespace_opt) (name : str) (parts : list (list group))
    (w : list nat) (ts : list transaction) : Prop :=
  NoDup w ∧ ∃ ho doc ns ls skip gs, hash_order_ok ho ∧ account_is doc name ∧ statement_lines E doc ls ∧ grouped ls skip gs ∧
    unplaced_group <$> gs = window parts w ∧ pdf_import E ho o doc = Ok (ns, ts).

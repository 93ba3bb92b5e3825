(** Specification vocabulary for the script of a bookkeeper with several accounts:
    import each statement, apply the rules for its account, merge everything (C133). *)
From Verif Require Import MergeClaims.
From Verif Require Import Base Types SpecBase CommentModel MergeModel CmdModel FingerprintModel NwCsvModel TzModel PaypalModel OcrModel PdfModel
  CmdClaims ImportClaims EditClaims WindowClaims StatementClaims PdfClaims PdfDaysClaims RulesModel RulesClaims ImporterModel WorkCmdClaims PdfWorkClaims
  PipeClaims ScriptClaims AccountsClaims.
Local Open Scope nat_scope.

(** A statement: the number of its account, the days on it, the files with it and with
    the time zones, or what the programs that show a PDF do; the file to import it to,
    and the one for what the rules make of it. *)
Record job := Job { jb_account : nat; jb_days : list nat; jb_csv : str; jb_zones : str; jb_tools : ocr_tools; jb_imported : str; jb_ruled : str }.
(** The rules of an account: file system and file they are in. *)
Record rules_file := RulesFile { rl_fs : rules_fs; rl_path : str; rl_fuel : nat }.

(** * The commands *)
Definition import_command (V : csv_env) (a : bank_account) (j : job) : command :=
  match a with
  | NationwideCsv pd o name rows => CNationwide V pd o (Path (jb_csv j)) (Path (jb_imported j)) false false
  | Paypal tz db ns groups => CPaypal V true tz ns (Path (jb_csv j)) (Path (jb_zones j)) (Path (jb_imported j)) false false
  | NationwidePdf P o name ds parts => CPdf P (jb_tools j) o (Path (jb_imported j)) false false
  end.
Definition rules_commands (R : rules_file) (h : history) (j : job) : list command :=
  match h_rules h with
  | Some (X, _) => [CRules X (rl_fs R) (rl_fuel R) (rl_path R) (Path (jb_imported j)) (Path (jb_ruled j))]
  | None => []
  end.
Definition job_commands (V : csv_env) (Rs : nat → rules_file) (hs : list history) (j : job) : list command :=
  match hs !! jb_account j with
  | Some h => import_command V (h_account h) j :: rules_commands (Rs (jb_account j)) h j
  | None => []
  end.
(** The file that goes to the merge command. *)
Definition job_result (hs : list history) (j : job) : str :=
  match hs !! jb_account j with
  | Some h => match h_rules h with Some _ => jb_ruled j | None => jb_imported j end
  | None => jb_imported j
  end.
Definition year_script (V : csv_env) (Rs : nat → rules_file) (hs : list history) (jobs : list job) : list command :=
  jobs ≫= job_commands V Rs hs.
Definition year_merge (hs : list history) (jobs : list job) (um : option filespec) (target : str) : command :=
  CMerge ((λ j, Path (job_result hs j)) <$> jobs) um (Path target).

(** * The files *)
Definition job_reads (a : bank_account) (j : job) : list str :=
  match a with NationwideCsv _ _ _ _ => [jb_csv j] | Paypal _ _ _ _ => [jb_csv j; jb_zones j] | NationwidePdf _ _ _ _ _ => [] end.
Definition job_writes (h : history) (j : job) : list str :=
  jb_imported j :: match h_rules h with Some _ => [jb_ruled j] | None => [] end.
(** In the world [w] the files of [j] are a statement of the account with the days [jb_days j]. *)
Definition statement_there (V : csv_env) (ho : hash_order) (w : world) (a : bank_account) (j : job) : Prop :=
  match a with
  | NationwideCsv pd o name rows => nw_file V pd name rows w (StatementFile ho (jb_csv j) (jb_imported j) (jb_days j))
  | Paypal tz db ns groups => pp_file V db groups w (StatementFile ho (jb_csv j) (jb_imported j) (jb_days j)) ∧ abbr_file V db w (jb_zones j)
  | NationwidePdf P o name ds parts => pdf_file_ok P name parts (PdfFile ho (jb_tools j) (jb_imported j) (jb_days j))
  end.
(** What is printed on the way is read back. *)
Definition reads_back_all (E : env) (h : history) (j : job) : Prop :=
  ∀ ts, statement_of (h_account h) (jb_days j) ts → prints_back E ts ∧
    ∀ X T J, h_rules h = Some (X, T) → ruled X T (as_merged ts) J → reads_back E J.
Record job_ok (E : env) (V : csv_env) (ho : hash_order) (w : world) (hs : list history) (j : job) (h : history) : Prop := {
  jo_account : hs !! jb_account j = Some h;
  jo_there : statement_there V ho w (h_account h) j;
  jo_readable : ∀ p, p ∈ job_reads (h_account h) j ++ job_writes h j → f_read E (Path p) = false;
  jo_prints : reads_back_all E h j;
}.
(** No file is written for two statements, or is one of the statements. *)
Definition jobs_apart (hs : list history) (jobs : list job) : Prop :=
  ∀ i k j j' h h' p, jobs !! i = Some j → jobs !! k = Some j' → hs !! jb_account j = Some h → hs !! jb_account j' = Some h' →
    p ∈ job_writes h j → p ∉ job_reads (h_account h') j' ∧ (p ∈ job_writes h' j' → i = k).
Definition rules_there (Rs : nat → rules_file) (hs : list history) : Prop :=
  ∀ n h X T, hs !! n = Some h → h_rules h = Some (X, T) → one_file (rl_fs (Rs n)) ∧ rules_loaded (rl_fs (Rs n)) (rl_path (Rs n)) T.

(** Payments of different accounts on the same day do not look alike. *)
Definition accounts_not_alike (hs : list history) : Prop :=
  ∀ n n' h h' J J' tp tp' p q, n ≠ n' → hs !! n = Some h → hs !! n' = Some h' → own_journal h J → own_journal h' J' →
    tp ∈ J → tp' ∈ J' → p ∈ tp_posts tp → q ∈ tp_posts tp' → tp_date tp = tp_date tp' → ¬ soft_match p q.
(** All days are on some statement. *)
Definition all_days (hs : list history) (jobs : list job) : Prop :=
  ∀ n h, hs !! n = Some h → covers (jb_days <$> filter (λ j, jb_account j = n) jobs) (h_days h).

(** Model of the commands and of the files they read and write: src/filespec.rs,
    src/internal.rs, src/ledgerutil.rs, src/fpgen.rs, src/fmt.rs,
    src/merge/sources.rs, src/merge/cmd.rs, src/importers/cmd.rs. *)
From stdpp Require Import gmap list.
From Verif Require Import Base Types CommentModel MergeModel.

(** * Files

    The world a command runs in.  Simplifications: a path names one file (no
    links; "a" and "./a" are different files); a file holds text (a file that is
    not UTF-8 counts as a read fault); directories only matter to
    --make-parent-dirs. *)
Record world := World {
  w_files : gmap str str; w_dirs : gset str; w_stdin : str; w_stdout : str }.

(** One effect on the world.  Writing a text is one event per character, so that
    a crash can strike at any point of it: [write_all] may be carried out by any
    number of system calls. *)
Inductive event :=
  | EvStdin                              (* the rest of stdin is consumed *)
  | EvCreate (p : str)                   (* File::create: made, or emptied *)
  | EvPut (p : str) (c : char)           (* a character appended to a file *)
  | EvOut (c : char)                     (* a character written to stdout *)
  | EvMkdir (p : str).                   (* a directory and its parents made *)

Definition step (w : world) (e : event) : world :=
  match e with
  | EvStdin => World (w_files w) (w_dirs w) [] (w_stdout w)
  | EvCreate p => World (<[p := []]> (w_files w)) (w_dirs w) (w_stdin w) (w_stdout w)
  | EvPut p c =>
      World (<[p := default [] (w_files w !! p) ++ [c]]> (w_files w)) (w_dirs w) (w_stdin w) (w_stdout w)
  | EvOut c => World (w_files w) (w_dirs w) (w_stdin w) (w_stdout w ++ [c])
  | EvMkdir p => World (w_files w) ({[p]} ∪ w_dirs w) (w_stdin w) (w_stdout w)
  end.
(** The world after some events. *)
Definition steps (w : world) (es : list event) : world := foldl step w es.

(** A run of a command: the events it causes, in order, and how it ends. *)
Definition io (A : Type) := world → list event * result A.
Definition io_ret {A} (a : A) : io A := λ w, ([], Ok a).
Definition io_fail {A} (e : err) : io A := λ w, ([], Err e).
(** A computation without effects. *)
Definition io_of {A} (r : result A) : io A := λ w, ([], r).
Definition io_bind {A B} (m : io A) (k : A → io B) : io B := λ w,
  let '(es, r) := m w in
  match r with
  | Ok a => let '(es', r') := k a (steps w es) in (es ++ es', r')
  | Err e => (es, Err e)
  | Panic => (es, Panic)
  end.
Notation "'do!' x := r 'in' k" := (io_bind r (λ x, k))
  (at level 200, x pattern, r at level 100, k at level 200, right associativity).

(** src/filespec.rs:15-20. *)
Inductive filespec := Stdio | Path (p : str).

(** What the commands use and the model leaves open: the ledger_parser crate
    ([ledger_parser::parse], [Display for Ledger]), [Debug for PathBuf],
    [Path::parent], and the I/O failures of the operating system: opening or
    reading fails, creating fails, writing fails after some characters. *)
Record env := Env {
  e_parse : str → option ledger;
  e_print : ledger → str;
  e_quote : str → str;
  e_parent : str → option str;
  f_read : filespec → bool;
  f_create : str → bool;
  f_write : filespec → option nat;
  f_mkdir : str → bool;
}.

(** src/filespec.rs:22-30. *)
Definition filespec_display (E : env) (f : filespec) : str :=
  match f with Stdio => s2l "<stdio>" | Path p => e_quote E p end.
(** src/filespec.rs:54-65. *)
Definition filespec_of (s : str) : filespec := if str_eqb s (s2l "-") then Stdio else Path s.

(** src/filespec.rs:33-41, 67-72. *)
Definition read_file (E : env) (f : filespec) : io str := λ w,
  if f_read E f then ([], Err EIo) else
  match f with
  | Stdio => ([EvStdin], Ok (w_stdin w))
  | Path p => match w_files w !! p with Some c => ([], Ok c) | None => ([], Err EIo) end
  end.
(** src/filespec.rs:74-77. *)
Definition read_ledger (E : env) (f : filespec) : io ledger :=
  do! content := read_file E f in
  io_of (match e_parse E content with Some l => Ok l | None => Err EParse end).

(** The events of [write_all]. *)
Definition put (f : filespec) (c : char) : event :=
  match f with Stdio => EvOut c | Path p => EvPut p c end.
Definition write_all (E : env) (f : filespec) (content : str) : io unit := λ w,
  match f_write E f with
  | Some n => if (n <? length content)%nat then (put f <$> take n content, Err EIo)
              else (put f <$> content, Ok tt)
  | None => (put f <$> content, Ok tt)
  end.
(** src/filespec.rs:43-51. *)
Definition writer (E : env) (f : filespec) : io unit := λ w,
  match f with
  | Stdio => ([], Ok tt)
  | Path p => if f_create E p then ([], Err EIo) else ([EvCreate p], Ok tt)
  end.
(** src/filespec.rs:79-83. *)
Definition write_file (E : env) (f : filespec) (content : str) : io unit :=
  do! _ := writer E f in write_all E f content.
(** src/filespec.rs:85-88. *)
Definition write_ledger (E : env) (f : filespec) (l : ledger) : io unit := write_file E f (e_print E l).

(** * Ledgers and transactions *)

(** src/internal.rs:42-55. *)
Fixpoint from_ledger (l : ledger) : result (list transaction_postings) :=
  match l with
  | [] => Ok []
  | ItemTransaction t :: l => let! ts := from_ledger l in Ok (transaction_postings_of t :: ts)
  | EmptyLine :: l => from_ledger l
  | OtherItem :: l => Err EUnhandledItem
  end.

(** [itertools::intersperse]. *)
Fixpoint intersperse {A} (sep : A) (l : list A) : list A :=
  match l with
  | [] => []
  | [x] => [x]
  | x :: l => x :: sep :: intersperse sep l
  end.
(** src/ledgerutil.rs:14-25. *)
Definition ledger_from_transactions (ts : list transaction) : ledger :=
  intersperse EmptyLine (ItemTransaction <$> ts).
(** src/internal.rs:57-59. *)
Definition into_ledger (ho : hash_order) (tps : list transaction_postings) : ledger :=
  ledger_from_transactions (transaction_of_postings ho <$> tps).

(** * The merge command *)

Definition map_trn_comment (f : comment → comment) (tp : transaction_postings) : transaction_postings :=
  TP (TI (ti_raw (tp_trn tp)) (f (ti_comment (tp_trn tp)))) (tp_posts tp).

(** src/merge/sources.rs:22-31: the source of a transaction, and the transaction
    carrying it as a tag. *)
Definition annotate (default_source : str) (tp : transaction_postings) : str * transaction_postings :=
  let vt := value_tags (ti_comment (tp_trn tp)) in
  let source := default default_source (vt !! TRANSACTION_SOURCE_KEY) in
  (source, map_trn_comment (set_value_tags (<[TRANSACTION_SOURCE_KEY := source]>)) tp).
(** src/merge/sources.rs:19-34: the groups. *)
Definition group_by_source (default_source : str) (tps : list transaction_postings)
  : gmap str (list transaction_postings) :=
  foldl (λ m tp, let '(source, tp) := annotate default_source tp in push_entry source tp m) ∅ tps.
(** src/merge/sources.rs:36-43. *)
Definition sorted_groups (ho : hash_order) (m : gmap str (list transaction_postings))
  : list (list transaction_postings) :=
  snd <$> stable_sort (λ a b, str_leb a.1 b.1) (ho_strs ho _ m).
(** src/merge/sources.rs:12-43. *)
Definition read_sources (E : env) (ho : hash_order) (f : filespec) : io (list (list transaction_postings)) :=
  do! l := read_ledger E f in
  do! tps := io_of (from_ledger l) in
  io_ret (sorted_groups ho (group_by_source (filespec_display E f) tps)).

(** src/merge/sources.rs:45-53. *)
Definition strip_sources (tps : list transaction_postings) : list transaction_postings :=
  map_trn_comment (set_value_tags (delete TRANSACTION_SOURCE_KEY)) <$> tps.

(** src/merge/cmd.rs:29-32: the sets of one input; the merger and the unmerged
    transactions so far. *)
Fixpoint merge_sets (ho : hash_order) (m : merger) (un : list transaction_postings)
    (sets : list (list transaction_postings)) : result (merger * list transaction_postings) :=
  match sets with
  | [] => Ok (m, un)
  | s :: sets =>
      match merge ho m s with
      | (m, Ok u) => merge_sets ho m (un ++ u) sets
      | (_, Err e) => Err e
      | (_, Panic) => Panic
      end
  end.
(** src/merge/cmd.rs:28-33. *)
Fixpoint merge_inputs (E : env) (ho : hash_order) (m : merger) (un : list transaction_postings)
    (inputs : list filespec) : io (merger * list transaction_postings) :=
  match inputs with
  | [] => io_ret (m, un)
  | f :: inputs =>
      do! sets := read_sources E ho f in
      do! (m, un) := io_of (merge_sets ho m un sets) in
      merge_inputs E ho m un inputs
  end.
(** src/merge/cmd.rs:35-53. *)
Definition write_unmerged (E : env) (ho : hash_order) (f : option filespec) (un : list transaction_postings)
  : io unit :=
  match un, f with
  | [], _ => io_ret tt
  | _ :: _, Some f => write_ledger E f (into_ledger ho un)
  | _ :: _, None => io_fail EUnmergedNoFile
  end.
(** src/merge/cmd.rs:23-60. *)
Definition merge_cmd (E : env) (ho : hash_order) (inputs : list filespec) (unmerged : option filespec)
    (output : filespec) : io unit :=
  do! (m, un) := merge_inputs E ho merger_new [] inputs in
  do! _ := write_unmerged E ho unmerged un in
  do! tps := io_of (build ho m) in
  write_ledger E output (into_ledger ho (strip_sources tps)).

(** * Formatting and fingerprint generation *)

(** src/fmt.rs:13-20. *)
Fixpoint fmt_cmd (E : env) (journals : list filespec) : io unit :=
  match journals with
  | [] => io_ret tt
  | f :: journals =>
      do! l := read_ledger E f in
      do! _ := write_ledger E f l in
      fmt_cmd E journals
  end.

(** src/fpgen.rs:33-48: one posting; [id] is the text of the UUID that is
    generated if one is needed, and the result says whether it was used. *)
Definition fpgen_posting (ho : hash_order) (id : str) (p : posting_internal) : bool * posting_internal :=
  if existsb is_fingerprint (ho_set ho (tags (pi_comment p))) then (false, p)
  else (true, PI (pi_raw p)
    (set_tags (λ s, {[FINGERPRINT_PREFIX ++ s2l "uuidb64-" ++ id]} ∪ s) (pi_comment p))).
(** The generated UUIDs are [gen n], [gen (n+1)], ...; the number of the next
    one is passed along. *)
Fixpoint fpgen_postings (ho : hash_order) (gen : nat → str) (n : nat) (ps : list posting_internal)
  : nat * list posting_internal :=
  match ps with
  | [] => (n, [])
  | p :: ps =>
      let '(used, p) := fpgen_posting ho (gen n) p in
      let '(n, ps) := fpgen_postings ho gen (if used then S n else n) ps in
      (n, p :: ps)
  end.
(** src/fpgen.rs:30-51. *)
Fixpoint fpgen_trns (ho : hash_order) (gen : nat → str) (n : nat) (tps : list transaction_postings)
  : nat * list transaction_postings :=
  match tps with
  | [] => (n, [])
  | tp :: tps =>
      let '(n, ps) := fpgen_postings ho gen n (tp_posts tp) in
      let '(n, tps) := fpgen_trns ho gen n tps in
      (n, TP (tp_trn tp) ps :: tps)
  end.
(** src/fpgen.rs:17-27. *)
Fixpoint fpgen_cmd (E : env) (ho : hash_order) (gen : nat → str) (n : nat) (journals : list filespec) : io unit :=
  match journals with
  | [] => io_ret tt
  | f :: journals =>
      do! l := read_ledger E f in
      do! tps := io_of (from_ledger l) in
      let '(n, tps) := fpgen_trns ho gen n tps in
      do! _ := write_ledger E f (into_ledger ho tps) in
      fpgen_cmd E ho gen n journals
  end.

(** * The import command *)

(** [str::replace] for a non-empty pattern: leftmost non-overlapping
    occurrences, left to right.  [skip] is what remains of an occurrence. *)
Fixpoint replace_from (pat sub : str) (skip : nat) (s : str) : str :=
  match s with
  | [] => []
  | c :: s' =>
      match skip with
      | S k => replace_from pat sub k s'
      | O => if starts_with pat s then sub ++ replace_from pat sub (length pat - 1) s'
             else c :: replace_from pat sub 0 s'
      end
  end.
Definition str_replace (pat sub s : str) : str := replace_from pat sub 0 s.

(** src/importers/importer.rs, Import. *)
Record import := Import { im_namespace : str; im_transactions : list transaction }.

(** src/importers/cmd.rs:64-79.  Simplification: paths are UTF-8. *)
Definition output_spec (output : filespec) (substitute : bool) (namespace : str) : result filespec :=
  if negb substitute then Ok output else
  match output with
  | Stdio => Err EStdioPath
  | Path p => Ok (Path (str_replace (s2l "%FP_NS%") namespace p))
  end.
(** src/importers/cmd.rs:81-92. *)
Definition make_parents (E : env) (make : bool) (output : filespec) : io unit :=
  if negb make then io_ret tt else
  match output with
  | Stdio => io_fail EStdioPath
  | Path p =>
      match e_parent E p with
      | None => io_ret tt
      | Some d => λ w, if f_mkdir E d then ([], Err EIo) else ([EvMkdir d], Ok tt)
      end
  end.
(** src/importers/cmd.rs:62-97; [importer] is the importer's get_transactions. *)
Definition import_cmd (E : env) (importer : io import) (output : filespec) (substitute make : bool) : io unit :=
  do! i := importer in
  do! output := io_of (output_spec output substitute (im_namespace i)) in
  do! _ := make_parents E make output in
  write_ledger E output (ledger_from_transactions (im_transactions i)).

#[export] Instance filespec_eq_dec : EqDecision filespec. Proof. solve_decision. Defined.
#[export] Instance world_eq_dec : EqDecision world. Proof. solve_decision. Defined.
#[export] Instance event_eq_dec : EqDecision event. Proof. solve_decision. Defined.

(** Specification vocabulary for the commands (C25-C30, C60, C61, C67, C68). *)
From Verif Require Import Base Types CommentModel MergeModel CmdModel SpecBase CommentClaims.
Local Open Scope nat_scope.

(** The worlds in which a crash can leave a run that causes the events [es]. *)
Definition crash_world (w : world) (es : list event) (w' : world) : Prop :=
  ∃ done rest, es = done ++ rest ∧ w' = steps w done.
(** No file, directory or output was touched. *)
Definition untouched (w w' : world) : Prop :=
  w_files w' = w_files w ∧ w_dirs w' = w_dirs w ∧ w_stdout w' = w_stdout w.
Definition same_file (w w' : world) (p : str) : Prop := w_files w' !! p = w_files w !! p.

(** What a write of [text] to [f] adds: the content of a file, or text at the
    end of stdout. *)
Definition holds (w0 w : world) (f : filespec) (text : str) : Prop :=
  match f with
  | Path p => w_files w !! p = Some text
  | Stdio => w_stdout w = w_stdout w0 ++ text
  end.

(** In world [w], [f] can be read and parses as the ledger [l]; reading stdin
    leaves nothing in it. *)
Inductive reads (E : env) : world → filespec → ledger → world → Prop :=
  | reads_path w p text l : f_read E (Path p) = false → w_files w !! p = Some text →
      e_parse E text = Some l → reads E w (Path p) l w
  | reads_stdin w l : f_read E Stdio = false → e_parse E (w_stdin w) = Some l →
      reads E w Stdio l (World (w_files w) (w_dirs w) [] (w_stdout w)).

(** The transactions of a ledger, and a ledger without unsupported items. *)
Definition ledger_trns (l : ledger) : list transaction :=
  omap (λ i, match i with ItemTransaction t => Some t | _ => None end) l.
Definition supported (l : ledger) : Prop := OtherItem ∉ l.

(** Strict order of strings by code points. *)
Definition str_lt (a b : str) : Prop :=
  ∃ p, (a = p ∧ ∃ y b', b = p ++ y :: b') ∨
       (∃ x a' y b', a = p ++ x :: a' ∧ b = p ++ y :: b' ∧ (x < y)%N).

(** The source of a transaction: its [source-file] tag, or the given one; and
    the transaction with that tag. *)
Definition source_tag (tp : transaction_postings) : option str :=
  value_tags (ti_comment (tp_trn tp)) !! s2l "source-file".
Definition source_of (file : str) (tp : transaction_postings) : str :=
  match source_tag tp with Some s => s | None => file end.
Definition sourced (file : str) (tp : transaction_postings) : transaction_postings :=
  let c := ti_comment (tp_trn tp) in
  TP (TI (ti_raw (tp_trn tp))
         (Comment (lines c) (tags c) (<[s2l "source-file" := source_of file tp]> (value_tags c))))
     (tp_posts tp).
Definition unsourced (tp tp' : transaction_postings) : Prop :=
  let c := ti_comment (tp_trn tp) in let c' := ti_comment (tp_trn tp') in
  tp_posts tp' = tp_posts tp ∧ ti_raw (tp_trn tp') = ti_raw (tp_trn tp) ∧
  lines c' = lines c ∧ tags c' = tags c ∧
  value_tags c' !! s2l "source-file" = None ∧
  ∀ k, k ≠ s2l "source-file" → value_tags c' !! k = value_tags c !! k.

(** [sets] are the transactions [tps] grouped by their source: the groups in
    strictly increasing order of the source, each in the order of [tps]. *)
Definition by_source (file : str) (tps : list transaction_postings)
    (sets : list (list transaction_postings)) : Prop :=
  ∃ sources, StronglySorted str_lt sources ∧
    (∀ s, s ∈ sources ↔ ∃ tp, tp ∈ tps ∧ source_of file tp = s) ∧
    sets = (λ s, sourced file <$> filter (λ tp, source_of file tp = s) tps) <$> sources.

(** The inputs of the merge command can all be read, parsed and converted, one
    after the other, and give these sets. *)
Inductive all_inputs (E : env) : world → list filespec → list (list transaction_postings) → world → Prop :=
  | inputs_nil w : all_inputs E w [] [] w
  | inputs_cons w f l w1 sets fs rest w2 :
      reads E w f l w1 → supported l →
      by_source (filespec_display E f) (transaction_postings_of <$> ledger_trns l) sets →
      all_inputs E w1 fs rest w2 → all_inputs E w (f :: fs) (sets ++ rest) w2.

(** A history of successful merges, with all that they hand back. *)
Inductive merges (ho : hash_order) : merger → list (list transaction_postings) →
    list transaction_postings → merger → Prop :=
  | merges_nil m : merges ho m [] [] m
  | merges_cons m s m1 u sets un m2 :
      merge ho m s = (m1, Ok u) → merges ho m1 sets un m2 → merges ho m (s :: sets) (u ++ un) m2.

(** The merge succeeded as a whole: what was read, what is handed back, the
    merger reached; and there is a place for what is handed back. *)
Record merge_complete (E : env) (ho : hash_order) (w : world) (inputs : list filespec)
    (unmerged : option filespec) (un : list transaction_postings) (m : merger) : Prop := {
  mc_sets : ∃ sets w', all_inputs E w inputs sets w' ∧ merges ho merger_new sets un m;
  mc_place : un = [] ∨ is_Some unmerged;
}.

(** Nothing goes wrong when writing to [f]. *)
Definition writable (E : env) (f : filespec) : Prop :=
  f_write E f = None ∧ match f with Path p => f_create E p = false | Stdio => True end.

(** A ledger made from transactions: a transaction at the even places, an empty
    line at the odd ones. *)
Definition alternating (l : ledger) (ts : list transaction) : Prop :=
  length l = 2 * length ts - 1 ∧
  (∀ i t, ts !! i = Some t → l !! (2 * i) = Some (ItemTransaction t)) ∧
  ∀ i, 2 * i + 1 < length l → l !! (2 * i + 1) = Some EmptyLine.

(** Adding fingerprints: [p'] is [p] if that has one, and otherwise [p] with the
    tag [fp-uuidb64-I] for a generated [I]. *)
Definition fingerprint_added (gen : nat → str) (p p' : posting_internal) : Prop :=
  ((∃ f, has_fp p f) ∧ p' = p) ∨
  ((∀ f, ¬ has_fp p f) ∧ pi_raw p' = pi_raw p ∧ lines (pi_comment p') = lines (pi_comment p) ∧
   value_tags (pi_comment p') = value_tags (pi_comment p) ∧
   ∃ n, ∀ t, has_tag p' t ↔ has_tag p t ∨ t = s2l "fp-uuidb64-" ++ gen n).

(** The new content of a journal, for [fmt]. *)
Definition formatted (E : env) (text text' : str) : Prop :=
  ∃ l, e_parse E text = Some l ∧ text' = e_print E l.

(** All comments of a transaction can be written and read back. *)
Definition comments_writable (tp : transaction_postings) : Prop :=
  representable (ti_comment (tp_trn tp)) ∧
  ∀ p, p ∈ tp_posts tp → representable (pi_comment p).

(** A file or stdout has been written to. *)
Definition output_touched (w w' : world) (f : filespec) : Prop :=
  match f with Path p => ¬ same_file w w' p | Stdio => w_stdout w' ≠ w_stdout w end.

(** The transactions of [tps'] are those of [tps] with fingerprints added. *)
Definition fingerprints_added (gen : nat → str) (tps tps' : list transaction_postings) : Prop :=
  Forall2 (λ tp tp', tp_trn tp' = tp_trn tp ∧ Forall2 (fingerprint_added gen) (tp_posts tp) (tp_posts tp')) tps tps'.
(** The new content of a journal, for [generate-fingerprints]. *)
Definition fingerprinted_text (E : env) (ho : hash_order) (gen : nat → str) (text text' : str) : Prop :=
  ∃ l tps', e_parse E text = Some l ∧ supported l ∧
    fingerprints_added gen (transaction_postings_of <$> ledger_trns l) tps' ∧ text' = e_print E (into_ledger ho tps').

(** At world [w'], journals have been rewritten one after the other: those
    before some place hold their new text, that at this place is as it was or
    holds a beginning of its new text, all other files are as they were. *)
Definition rewriting (new : str → str → Prop) (w w' : world) (js : list filespec) : Prop :=
  ∃ before after, js = before ++ after ∧
    (∀ p, Path p ∈ before → ∃ text text', w_files w !! p = Some text ∧ new text text' ∧ w_files w' !! p = Some text') ∧
    (∀ p, head after = Some (Path p) → same_file w w' p ∨
       ∃ text part rest, w_files w !! p = Some text ∧ new text (part ++ rest) ∧ w_files w' !! p = Some part) ∧
    (∀ p, Path p ∉ before → head after ≠ Some (Path p) → same_file w w' p).
(** All of them hold their new text. *)
Definition rewritten (new : str → str → Prop) (w w' : world) (js : list filespec) : Prop :=
  (∀ p, Path p ∈ js → ∃ text text', w_files w !! p = Some text ∧ new text text' ∧ w_files w' !! p = Some text') ∧
  (∀ p, Path p ∉ js → same_file w w' p).

(** [pat] stands in [s] at place [i]; [s'] is [s] with the occurrences of [pat]
    replaced by [sub], from left to right, without overlap. *)
Definition occurs_at (pat s : str) (i : nat) : Prop := ∃ x y, s = x ++ pat ++ y ∧ length x = i.
Inductive replaced (pat sub : str) : str → str → Prop :=
  | replaced_none s : (∀ i, ¬ occurs_at pat s i) → replaced pat sub s s
  | replaced_first a b b' : (∀ i, occurs_at pat (a ++ pat ++ b) i → length a ≤ i) → replaced pat sub b b' →
      replaced pat sub (a ++ pat ++ b) (a ++ sub ++ b').

(** A run that only reads. *)
Definition only_reads (es : list event) : Prop := Forall (λ e, e = EvStdin) es.

(** The distinct values of [l] in the order in which they come first. *)
Definition first_seen {A} (l d : list A) : Prop :=
  NoDup d ∧ (∀ x, x ∈ d ↔ x ∈ l) ∧
  ∀ i j x y, d !! i = Some x → d !! j = Some y → i < j →
    ∃ n, l !! n = Some x ∧ ∀ k, l !! k = Some y → n < k.

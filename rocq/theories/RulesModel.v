(** Model of src/rules/table/*.rs and src/rules/cmd.rs. *)
From stdpp Require Import gmap list.
From Verif Require Import Base Types CommentModel MergeModel CmdModel.

(** What the rules use and the model leaves open: the regex crate
    ([Regex::is_match], and [Regex::replace] with its replacement syntax) and
    [str::to_lowercase].  A regular expression is represented by its text. *)
Record text_env := TextEnv {
  rx_match : str → str → bool;
  rx_replace : str → str → str → str;
  lowercase : str → str;
}.

(** src/rules/table/predicate.rs:55-61. *)
Inductive string_match :=
  | MAsLower (m : string_match) | MContains (s : str) | MEq (s : str) | MMatches (r : str).
(** src/rules/table/predicate.rs:63-74. *)
Fixpoint matches_string (X : text_env) (m : string_match) (s : str) : bool :=
  match m with
  | MAsLower m => matches_string X m (lowercase X s)
  | MContains want => contains want s
  | MEq want => str_eqb want s
  | MMatches r => rx_match X r s
  end.

(** src/rules/table/ctx.rs:3-6. *)
Record rctx := RCtx { rc_trn : transaction_internal; rc_post : posting_internal }.

(** src/rules/table/predicate.rs:7-19. *)
Inductive predicate :=
  | PAll (l : list predicate) | PAny (l : list predicate)
  | PAccount (m : string_match) | PFlagTag (m : string_match)
  | PHasFlagTag (t : str) | PHasValueTag (k : str) | PValueTag (k : str) (m : string_match)
  | PNot (p : predicate) | PDescription (m : string_match) | PTrue.
(** src/rules/table/predicate.rs:22-47. *)
Fixpoint is_match (X : text_env) (ho : hash_order) (p : predicate) (c : rctx) : bool :=
  match p with
  | PTrue => true
  | PAll ps => forallb (λ p, is_match X ho p c) ps
  | PAny ps => existsb (λ p, is_match X ho p c) ps
  | PAccount m => matches_string X m (p_account (pi_raw (rc_post c)))
  | PNot p => negb (is_match X ho p c)
  | PFlagTag m => existsb (matches_string X m) (ho_set ho (tags (pi_comment (rc_post c))))
  | PHasFlagTag t => bool_decide (t ∈ tags (pi_comment (rc_post c)))
  | PHasValueTag k => bool_decide (is_Some (value_tags (pi_comment (rc_post c)) !! k))
  | PValueTag k m =>
      match value_tags (pi_comment (rc_post c)) !! k with
      | Some v => matches_string X m v
      | None => false
      end
  | PDescription m => matches_string X m (t_description (ti_raw (rc_trn c)))
  end.

(** src/rules/table/mod.rs:157-179, 254-258. *)
Inductive rule_result := RContinue | RReturn.
Inductive action :=
  | AAddPostFlag (t : str) | AAddPostValue (k v : str)
  | AAddTrnFlag (t : str) | AAddTrnValue (k v : str)
  | AAll (l : list action) | AError (msg : str) | ANoop | AJump (name : str) | ASetAccount (a : str)
  | ARemovePostFlag (t : str) | ARemovePostValue (k : str)
  | ARemoveTrnFlag (t : str) | ARemoveTrnValue (k : str)
  | AReplaceDescription (regex replacement : str).
(** src/rules/table/mod.rs:135-140. *)
Record rule := Rule { r_predicate : predicate; r_action : action; r_result : rule_result }.
(** src/rules/table/mod.rs:54-57, 109-110. *)
Notation table := (gmap str (list rule)).
(** src/rules/table/mod.rs:19. *)
Definition START_CHAIN : str := s2l "start".

(** Assignments through [&mut PostingContext]. *)
Definition on_post_comment (f : comment → comment) (c : rctx) : rctx :=
  RCtx (rc_trn c) (PI (pi_raw (rc_post c)) (f (pi_comment (rc_post c)))).
Definition on_trn_comment (f : comment → comment) (c : rctx) : rctx :=
  RCtx (TI (ti_raw (rc_trn c)) (f (ti_comment (rc_trn c)))) (rc_post c).
Definition on_account (a : str) (c : rctx) : rctx :=
  RCtx (rc_trn c) (PI (set_account a (pi_raw (rc_post c))) (pi_comment (rc_post c))).
Definition on_description (f : str → str) (c : rctx) : rctx :=
  RCtx (TI (set_description (f (t_description (ti_raw (rc_trn c)))) (ti_raw (rc_trn c))) (ti_comment (rc_trn c))) (rc_post c).

(** A computation that may not have ended yet ([None]): chains can jump to each
    other for ever (in Rust, until the stack overflows). *)
Definition run (A : Type) := option (result A).
Definition run_bind {A B} (r : run A) (k : A → run B) : run B :=
  match r with Some (Ok a) => k a | Some (Err e) => Some (Err e) | Some Panic => Some Panic | None => None end.

(** src/rules/table/mod.rs:182-242; [jump] applies the chain of a name.  Of an
    error only that it is a rule's is kept. *)
Fixpoint apply_action (X : text_env) (jump : str → rctx → run rctx) (a : action) (c : rctx) : run rctx :=
  match a with
  | AAddPostFlag t => Some (Ok (on_post_comment (set_tags (λ s, {[t]} ∪ s)) c))
  | AAddPostValue k v => Some (Ok (on_post_comment (set_value_tags (<[k := v]>)) c))
  | AAddTrnFlag t => Some (Ok (on_trn_comment (set_tags (λ s, {[t]} ∪ s)) c))
  | AAddTrnValue k v => Some (Ok (on_trn_comment (set_value_tags (<[k := v]>)) c))
  | AAll l =>
      (fix go (l : list action) (c : rctx) : run rctx :=
        match l with [] => Some (Ok c) | a :: l => run_bind (apply_action X jump a c) (go l) end) l c
  | AError _ => Some (Err ERuleError)
  | ANoop => Some (Ok c)
  | AJump name => jump name c
  | ASetAccount v => Some (Ok (on_account v c))
  | ARemovePostFlag t => Some (Ok (on_post_comment (set_tags (λ s, s ∖ {[t]})) c))
  | ARemovePostValue k => Some (Ok (on_post_comment (set_value_tags (delete k)) c))
  | ARemoveTrnFlag t => Some (Ok (on_trn_comment (set_tags (λ s, s ∖ {[t]})) c))
  | ARemoveTrnValue k => Some (Ok (on_trn_comment (set_value_tags (delete k)) c))
  | AReplaceDescription r s => Some (Ok (on_description (rx_replace X r s) c))
  end.
(** src/rules/table/mod.rs:143-150. *)
Definition apply_rule (X : text_env) (ho : hash_order) (jump : str → rctx → run rctx) (r : rule) (c : rctx)
  : run (rule_result * rctx) :=
  if is_match X ho (r_predicate r) c
  then run_bind (apply_action X jump (r_action r) c) (λ c, Some (Ok (r_result r, c)))
  else Some (Ok (RContinue, c)).
(** src/rules/table/mod.rs:117-125. *)
Fixpoint apply_rules (X : text_env) (ho : hash_order) (jump : str → rctx → run rctx) (rs : list rule) (c : rctx)
  : run rctx :=
  match rs with
  | [] => Some (Ok c)
  | r :: rs =>
      run_bind (apply_rule X ho jump r c) (λ '(res, c),
        match res with RContinue => apply_rules X ho jump rs c | RReturn => Some (Ok c) end)
  end.
(** src/rules/table/mod.rs:85-89, 218-220: a chain by name; at most [fuel] chains
    inside each other. *)
Fixpoint apply_chain (X : text_env) (ho : hash_order) (T : table) (fuel : nat) (name : str) (c : rctx) : run rctx :=
  match fuel with
  | O => None
  | S fuel =>
      match T !! name with
      | None => Some (Err EChainNotFound)
      | Some rs => apply_rules X ho (apply_chain X ho T fuel) rs c
      end
  end.

(** src/rules/table/mod.rs:75-81: the postings in order, with the transaction
    passed along. *)
Fixpoint update_posts (chain : rctx → run rctx) (trn : transaction_internal) (ps : list posting_internal)
  : run (transaction_internal * list posting_internal) :=
  match ps with
  | [] => Some (Ok (trn, []))
  | p :: ps =>
      run_bind (chain (RCtx trn p)) (λ c,
      run_bind (update_posts chain (rc_trn c) ps) (λ '(trn, ps), Some (Ok (trn, rc_post c :: ps))))
  end.
(** src/rules/table/mod.rs:73-83. *)
Definition update_transaction (X : text_env) (ho : hash_order) (T : table) (fuel : nat) (tp : transaction_postings)
  : run transaction_postings :=
  match T !! START_CHAIN with
  | None => Some (Err EChainNotFound)
  | Some _ =>
      run_bind (update_posts (apply_chain X ho T fuel START_CHAIN) (tp_trn tp) (tp_posts tp)) (λ '(trn, ps),
        Some (Ok (TP trn ps)))
  end.
(** src/rules/table/mod.rs:64-71. *)
Fixpoint update_transactions (X : text_env) (ho : hash_order) (T : table) (fuel : nat) (tps : list transaction_postings)
  : run (list transaction_postings) :=
  match tps with
  | [] => Some (Ok [])
  | tp :: tps =>
      run_bind (update_transaction X ho T fuel tp) (λ tp,
      run_bind (update_transactions X ho T fuel tps) (λ tps, Some (Ok (tp :: tps))))
  end.

(** src/rules/table/mod.rs:244-251. *)
Definition validate_action (T : table) (a : action) : result unit :=
  match a with
  | AJump name => match T !! name with Some _ => Ok tt | None => Err EChainNotFound end
  | _ => Ok tt
  end.
(** src/rules/table/mod.rs:127-132, 152-154. *)
Fixpoint validate_rules (T : table) (rs : list rule) : result unit :=
  match rs with
  | [] => Ok tt
  | r :: rs => let! _ := validate_action T (r_action r) in validate_rules T rs
  end.
Fixpoint validate_chains (T : table) (cs : list (str * list rule)) : result unit :=
  match cs with
  | [] => Ok tt
  | c :: cs => let! _ := validate_rules T c.2 in validate_chains T cs
  end.
(** src/rules/table/mod.rs:91-97. *)
Definition validate (ho : hash_order) (T : table) : result unit :=
  match T !! START_CHAIN with
  | None => Err EChainNotFound
  | Some _ => validate_chains T (ho_strs ho _ T)
  end.

(** * Loading *)

(** src/rules/table/source.rs:102-106. *)
Inductive entry := EInclude (path : str) | EChain (name : str) (rules : list rule).
(** The files with rules: opening and parsing a path ([File::open] and the ron
    crate), [std::fs::canonicalize], [Path::parent], [Path::join]. *)
Record rules_fs := RulesFs {
  rf_open : str → option (list entry);
  rf_canonical : str → option str;
  rf_parent : str → option str;
  rf_join : str → str → str;
}.
(** What has been loaded: chains, and the canonical paths seen. *)
Definition loaded := (table * gset str)%type.

(** src/rules/table/source.rs:44-99 for a file with a path, which [from_path]
    (17-26) has parsed into [entries]; at most [fuel] files inside each other. *)
Fixpoint load_into (F : rules_fs) (fuel : nat) (path : str) (entries : list entry) (s : loaded) : run loaded :=
  match fuel with
  | O => None
  | S fuel =>
      match rf_canonical F path with
      | None => Some (Err EIo)
      | Some self =>
          if decide (self ∈ s.2) then Some (Ok s) else
          (fix go (entries : list entry) (s : loaded) : run loaded :=
            match entries with
            | [] => Some (Ok s)
            | EInclude inc :: entries =>
                match rf_parent F self with
                | None => Some (Err EIo)
                | Some dir =>
                    let inc := rf_join F dir inc in
                    match rf_open F inc with
                    | None => Some (Err EParse)
                    | Some included => run_bind (load_into F fuel inc included s) (go entries)
                    end
                end
            | EChain name rules :: entries =>
                match s.1 !! name with
                | Some _ => Some (Err EDupChain)
                | None => go entries (<[name := rules]> s.1, s.2)
                end
            end) entries (s.1, {[self]} ∪ s.2)
      end
  end.
(** src/rules/table/source.rs:17-26, 37-42: [File::from_path] and [File::load]. *)
Definition load_file (F : rules_fs) (fuel : nat) (path : str) : run table :=
  match rf_open F path with
  | None => Some (Err EParse)
  | Some entries => run_bind (load_into F fuel path entries (∅, ∅)) (λ s, Some (Ok s.1))
  end.
(** src/rules/table/mod.rs:21-26. *)
Definition load_from_path (F : rules_fs) (ho : hash_order) (fuel : nat) (path : str) : run table :=
  run_bind (load_file F fuel path) (λ T,
  run_bind (Some (validate ho T)) (λ _, Some (Ok T))).

(** * The command *)

(** Part of a command that may not end; the command then does nothing more. *)
Definition io_run {A B} (r : run A) (k : A → io (option B)) : io (option B) :=
  match r with None => io_ret None | Some r => do! a := io_of r in k a end.
(** src/rules/cmd.rs:36-48; [Ok None]: did not end. *)
Definition rules_cmd (E : env) (X : text_env) (F : rules_fs) (ho : hash_order) (fuel : nat)
    (rules : str) (input output : filespec) : io (option unit) :=
  io_run (load_from_path F ho fuel rules) (λ T,
  do! l := read_ledger E input in
  do! tps := io_of (from_ledger l) in
  io_run (update_transactions X ho T fuel tps) (λ tps,
  do! _ := write_ledger E output (into_ledger ho tps) in
  io_ret (Some tt))).

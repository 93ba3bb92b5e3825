(** Specification vocabulary for the rules (C53-C59, C73-C75). *)
From stdpp Require Import gmap list relations.
From Verif Require Import Base Types CommentModel MergeModel CmdModel SpecBase CmdClaims RulesModel.
Local Open Scope nat_scope.

(** * What stays (C53) *)

(** Everything but the account and the tags of a posting. *)
Record posting_kept (p p' : posting_internal) : Prop := {
  pk_reality : p_reality (pi_raw p') = p_reality (pi_raw p);
  pk_amount : p_amount (pi_raw p') = p_amount (pi_raw p);
  pk_balance : p_balance (pi_raw p') = p_balance (pi_raw p);
  pk_status : p_status (pi_raw p') = p_status (pi_raw p);
  pk_comment : p_comment (pi_raw p') = p_comment (pi_raw p);
  pk_lines : lines (pi_comment p') = lines (pi_comment p);
}.
(** Everything but the description and the tags of a transaction. *)
Record trn_kept (t t' : transaction_internal) : Prop := {
  tk_comment : t_comment (ti_raw t') = t_comment (ti_raw t);
  tk_date : t_date (ti_raw t') = t_date (ti_raw t);
  tk_effective : t_effective_date (ti_raw t') = t_effective_date (ti_raw t);
  tk_status : t_status (ti_raw t') = t_status (ti_raw t);
  tk_code : t_code (ti_raw t') = t_code (ti_raw t);
  tk_postings : t_postings (ti_raw t') = t_postings (ti_raw t);
  tk_lines : lines (ti_comment t') = lines (ti_comment t);
}.
Definition tp_kept (tp tp' : transaction_postings) : Prop :=
  trn_kept (tp_trn tp) (tp_trn tp') ∧ Forall2 posting_kept (tp_posts tp) (tp_posts tp').

(** [a] is the action [b], or one of the actions listed in it at any depth. *)
Inductive within (a : action) : action → Prop :=
  | within_here : within a a
  | within_all b l : b ∈ l → within a b → within a (AAll l).
(** The table has a rule with this action. *)
Definition has_action (T : table) (a : action) : Prop :=
  ∃ name rs r, T !! name = Some rs ∧ r ∈ rs ∧ within a (r_action r).

(** What of a posting (a transaction) can have changed, given the actions of the
    table. *)
Definition posting_changes (T : table) (p p' : posting_internal) : Prop :=
  (p_account (pi_raw p') = p_account (pi_raw p) ∨ has_action T (ASetAccount (p_account (pi_raw p')))) ∧
  (∀ t, has_tag p' t → has_tag p t ∨ has_action T (AAddPostFlag t)) ∧
  (∀ t, has_tag p t → has_tag p' t ∨ has_action T (ARemovePostFlag t)) ∧
  (∀ k, value_tags (pi_comment p') !! k = value_tags (pi_comment p) !! k ∨
     (value_tags (pi_comment p') !! k = None ∧ has_action T (ARemovePostValue k)) ∨
     (∃ v, value_tags (pi_comment p') !! k = Some v ∧ has_action T (AAddPostValue k v))).
Definition trn_changes (T : table) (t t' : transaction_internal) : Prop :=
  (t_description (ti_raw t') = t_description (ti_raw t) ∨ ∃ r s, has_action T (AReplaceDescription r s)) ∧
  (∀ f, f ∈ tags (ti_comment t') → f ∈ tags (ti_comment t) ∨ has_action T (AAddTrnFlag f)) ∧
  (∀ f, f ∈ tags (ti_comment t) → f ∈ tags (ti_comment t') ∨ has_action T (ARemoveTrnFlag f)) ∧
  (∀ k, value_tags (ti_comment t') !! k = value_tags (ti_comment t) !! k ∨
     (value_tags (ti_comment t') !! k = None ∧ has_action T (ARemoveTrnValue k)) ∨
     (∃ v, value_tags (ti_comment t') !! k = Some v ∧ has_action T (AAddTrnValue k v))).
Definition tp_changes (T : table) (tp tp' : transaction_postings) : Prop :=
  trn_changes T (tp_trn tp) (tp_trn tp') ∧ Forall2 (posting_changes T) (tp_posts tp) (tp_posts tp').

(** * Predicates (C57) *)

Fixpoint string_ok (X : text_env) (m : string_match) (s : str) : Prop :=
  match m with
  | MAsLower m => string_ok X m (lowercase X s)
  | MContains want => ∃ x y, s = x ++ want ++ y
  | MEq want => s = want
  | MMatches r => rx_match X r s = true
  end.
Inductive holds_for (X : text_env) (c : rctx) : predicate → Prop :=
  | hf_true : holds_for X c PTrue
  | hf_all ps : (∀ p, p ∈ ps → holds_for X c p) → holds_for X c (PAll ps)
  | hf_any ps p : p ∈ ps → holds_for X c p → holds_for X c (PAny ps)
  | hf_not p : fails_for X c p → holds_for X c (PNot p)
  | hf_account m : string_ok X m (p_account (pi_raw (rc_post c))) → holds_for X c (PAccount m)
  | hf_description m : string_ok X m (t_description (ti_raw (rc_trn c))) → holds_for X c (PDescription m)
  | hf_flag m t : has_tag (rc_post c) t → string_ok X m t → holds_for X c (PFlagTag m)
  | hf_has_flag t : has_tag (rc_post c) t → holds_for X c (PHasFlagTag t)
  | hf_has_value k v : value_tags (pi_comment (rc_post c)) !! k = Some v → holds_for X c (PHasValueTag k)
  | hf_value k m v : value_tags (pi_comment (rc_post c)) !! k = Some v → string_ok X m v →
      holds_for X c (PValueTag k m)
(** ... does not hold: *)
with fails_for (X : text_env) (c : rctx) : predicate → Prop :=
  | ff_all ps p : p ∈ ps → fails_for X c p → fails_for X c (PAll ps)
  | ff_any ps : (∀ p, p ∈ ps → fails_for X c p) → fails_for X c (PAny ps)
  | ff_not p : holds_for X c p → fails_for X c (PNot p)
  | ff_account m : ¬ string_ok X m (p_account (pi_raw (rc_post c))) → fails_for X c (PAccount m)
  | ff_description m : ¬ string_ok X m (t_description (ti_raw (rc_trn c))) → fails_for X c (PDescription m)
  | ff_flag m : (∀ t, has_tag (rc_post c) t → ¬ string_ok X m t) → fails_for X c (PFlagTag m)
  | ff_has_flag t : ¬ has_tag (rc_post c) t → fails_for X c (PHasFlagTag t)
  | ff_has_value k : value_tags (pi_comment (rc_post c)) !! k = None → fails_for X c (PHasValueTag k)
  | ff_value k m : (∀ v, value_tags (pi_comment (rc_post c)) !! k = Some v → ¬ string_ok X m v) →
      fails_for X c (PValueTag k m).

(** * What applying a chain means (C54) *)

(** The posting with other tags only. *)
Definition retagged (p p' : posting_internal) (ts : gset str) (vs : gmap str str) : Prop :=
  p' = PI (pi_raw p) (Comment (lines (pi_comment p)) ts vs).
Definition trn_retagged (t t' : transaction_internal) (ts : gset str) (vs : gmap str str) : Prop :=
  t' = TI (ti_raw t) (Comment (lines (ti_comment t)) ts vs).
(** The flags or values with one added or removed. *)
Definition flag_added (t : str) (ts ts' : gset str) : Prop := ∀ x, x ∈ ts' ↔ x = t ∨ x ∈ ts.
Definition flag_removed (t : str) (ts ts' : gset str) : Prop := ∀ x, x ∈ ts' ↔ x ≠ t ∧ x ∈ ts.
Definition value_set (k : str) (o : option str) (vs vs' : gmap str str) : Prop :=
  vs' !! k = o ∧ ∀ x, x ≠ k → vs' !! x = vs !! x.

(** The actions that change one thing. *)
Definition edits (X : text_env) (a : action) (c c' : rctx) : Prop :=
  let p := rc_post c in let p' := rc_post c' in let t := rc_trn c in let t' := rc_trn c' in
  let pc := pi_comment p in let tc := ti_comment t in
  match a with
  | AAddPostFlag f => t' = t ∧ ∃ ts, flag_added f (tags pc) ts ∧ retagged p p' ts (value_tags pc)
  | ARemovePostFlag f => t' = t ∧ ∃ ts, flag_removed f (tags pc) ts ∧ retagged p p' ts (value_tags pc)
  | AAddPostValue k v => t' = t ∧ ∃ vs, value_set k (Some v) (value_tags pc) vs ∧ retagged p p' (tags pc) vs
  | ARemovePostValue k => t' = t ∧ ∃ vs, value_set k None (value_tags pc) vs ∧ retagged p p' (tags pc) vs
  | AAddTrnFlag f => p' = p ∧ ∃ ts, flag_added f (tags tc) ts ∧ trn_retagged t t' ts (value_tags tc)
  | ARemoveTrnFlag f => p' = p ∧ ∃ ts, flag_removed f (tags tc) ts ∧ trn_retagged t t' ts (value_tags tc)
  | AAddTrnValue k v => p' = p ∧ ∃ vs, value_set k (Some v) (value_tags tc) vs ∧ trn_retagged t t' (tags tc) vs
  | ARemoveTrnValue k => p' = p ∧ ∃ vs, value_set k None (value_tags tc) vs ∧ trn_retagged t t' (tags tc) vs
  | ASetAccount v => t' = t ∧ pi_comment p' = pc ∧
      p_account (pi_raw p') = v ∧ set_account (p_account (pi_raw p)) (pi_raw p') = pi_raw p
  | AReplaceDescription r s => p' = p ∧ ti_comment t' = tc ∧
      t_description (ti_raw t') = rx_replace X r s (t_description (ti_raw t)) ∧
      set_description (t_description (ti_raw t)) (ti_raw t') = ti_raw t
  | ANoop => c' = c
  | AAll _ | AError _ | AJump _ => False
  end.

(** How an action, the rules of a chain from some rule on, and a chain end. *)
Inductive acts (X : text_env) (T : table) : action → rctx → result rctx → Prop :=
  | acts_edit a c c' : edits X a c c' → acts X T a c (Ok c')
  | acts_error msg c : acts X T (AError msg) c (Err ERuleError)
  | acts_jump name c out : chain_ends X T name c out → acts X T (AJump name) c out
  | acts_all_none c : acts X T (AAll []) c (Ok c)
  | acts_all_ok a l c c1 out : acts X T a c (Ok c1) → acts X T (AAll l) c1 out → acts X T (AAll (a :: l)) c out
  | acts_all_err a l c e : acts X T a c (Err e) → acts X T (AAll (a :: l)) c (Err e)
with rules_end (X : text_env) (T : table) : list rule → rctx → result rctx → Prop :=
  | end_none c : rules_end X T [] c (Ok c)
  | end_skip r rs c out : fails_for X c (r_predicate r) → rules_end X T rs c out → rules_end X T (r :: rs) c out
  | end_err r rs c e : holds_for X c (r_predicate r) → acts X T (r_action r) c (Err e) →
      rules_end X T (r :: rs) c (Err e)
  | end_return r rs c c1 : holds_for X c (r_predicate r) → acts X T (r_action r) c (Ok c1) →
      r_result r = RReturn → rules_end X T (r :: rs) c (Ok c1)
  | end_continue r rs c c1 out : holds_for X c (r_predicate r) → acts X T (r_action r) c (Ok c1) →
      r_result r = RContinue → rules_end X T rs c1 out → rules_end X T (r :: rs) c out
with chain_ends (X : text_env) (T : table) : str → rctx → result rctx → Prop :=
  | chain_found name rs c out : T !! name = Some rs → rules_end X T rs c out → chain_ends X T name c out
  | chain_missing name c : T !! name = None → chain_ends X T name c (Err EChainNotFound).

(** A transaction: the chain "start" on each posting in turn, with the
    transaction as the postings before it have left it. *)
Inductive posts_end (X : text_env) (T : table) : transaction_internal → list posting_internal →
    transaction_internal → list posting_internal → Prop :=
  | posts_none t : posts_end X T t [] t []
  | posts_one t p ps t1 p1 t2 ps2 : chain_ends X T (s2l "start") (RCtx t p) (Ok (RCtx t1 p1)) →
      posts_end X T t1 ps t2 ps2 → posts_end X T t (p :: ps) t2 (p1 :: ps2).

(** * Jumps (C55, C56, C73, C74) *)

(** Some rule of chain [n] has, at any depth of its action, a jump to [m]. *)
Definition jumps (T : table) (n m : str) : Prop :=
  ∃ rs r, T !! n = Some rs ∧ r ∈ rs ∧ within (AJump m) (r_action r).
(** The chains that can be run. *)
Definition used (T : table) (n : str) : Prop := rtc (jumps T) (s2l "start") n.

(** * Loading (C59) *)

(** All names of a file open the same file. *)
Definition one_file (F : rules_fs) : Prop :=
  ∀ p q, rf_canonical F p = Some q → rf_open F p = rf_open F q.
(** The file system is finite: all canonical paths are in this list. *)
Definition all_paths (F : rules_fs) (paths : list str) : Prop :=
  ∀ p q, rf_canonical F p = Some q → q ∈ paths.
(** File [q] has an include of [p] (relative to where [q] is). *)
Definition includes (F : rules_fs) (q p : str) : Prop :=
  ∃ es i dir, rf_open F q = Some es ∧ EInclude i ∈ es ∧ rf_parent F q = Some dir ∧ p = rf_join F dir i.
(** The files that are reached from [p] by includes, by canonical path. *)
Inductive reached (F : rules_fs) (p : str) : str → Prop :=
  | reached_root q : rf_canonical F p = Some q → reached F p q
  | reached_include q p' q' : reached F p q → includes F q p' → rf_canonical F p' = Some q' → reached F p q'.
(** A path that can be opened, read and located. *)
Definition readable (F : rules_fs) (p : str) : Prop := is_Some (rf_open F p) ∧ is_Some (rf_canonical F p).
(** ... and so can all that is included from it. *)
Definition all_readable (F : rules_fs) (p : str) : Prop :=
  readable F p ∧
  ∀ q, reached F p q → (∀ p', includes F q p' → readable F p') ∧
    (∀ es i, rf_open F q = Some es → EInclude i ∈ es → is_Some (rf_parent F q)).
(** The chains a file defines, in order. *)
Definition definitions (F : rules_fs) (q : str) : list (str * list rule) :=
  omap (λ e, match e with EChain n rs => Some (n, rs) | EInclude _ => None end) (default [] (rf_open F q)).

(** No chain is defined twice, in one file or in two. *)
Definition defined_once (F : rules_fs) (p : str) : Prop :=
  (∀ q, reached F p q → NoDup (definitions F q).*1) ∧
  ∀ q q' n rs rs', reached F p q → reached F p q' → (n, rs) ∈ definitions F q → (n, rs') ∈ definitions F q' → q = q'.
(** The table has exactly the chains defined in the files reached. *)
Definition chains_of_files (F : rules_fs) (p : str) (T : table) : Prop :=
  ∀ n rs, T !! n = Some rs ↔ ∃ q, reached F p q ∧ (n, rs) ∈ definitions F q.

(** * The command (C58) *)

(** What validation demands. *)
Definition start_and_jumps (T : table) : Prop :=
  is_Some (T !! s2l "start") ∧
  ∀ n rs r m, T !! n = Some rs → r ∈ rs → r_action r = AJump m → is_Some (T !! m).
(** The rules can be loaded, giving [T]; the journal can be read and has these
    transactions. *)
Definition rules_loaded (F : rules_fs) (rules : str) (T : table) : Prop :=
  all_readable F rules ∧ defined_once F rules ∧ chains_of_files F rules T ∧ start_and_jumps T.
Definition journal_read (E : env) (w : world) (input : filespec) (tps : list transaction_postings) : Prop :=
  ∃ l w', reads E w input l w' ∧ supported l ∧ tps = transaction_postings_of <$> ledger_trns l.
(** ... and applying the rules to them ends well, with these transactions. *)
Definition rules_applied (E : env) (X : text_env) (F : rules_fs) (w : world) (rules : str) (input : filespec)
    (out : list transaction_postings) : Prop :=
  ∃ T tps, rules_loaded F rules T ∧ journal_read E w input tps ∧
    Forall2 (λ tp tp', posts_end X T (tp_trn tp) (tp_posts tp) (tp_trn tp') (tp_posts tp')) tps out.

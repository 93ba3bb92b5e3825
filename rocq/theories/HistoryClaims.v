(** Specification vocabulary for whole histories of merges (C104, C105). *)
From Verif Require Import Base Types MergeModel SpecBase MergeClaims.
Local Open Scope nat_scope.

(** A history of merges, all successful, each with its hash iteration order, its
    input set and the transactions it handed back. *)
Notation run := (hash_order * list transaction_postings * list transaction_postings)%type.
Inductive merge_run : merger → list run → merger → Prop :=
  | mrun_nil m : merge_run m [] m
  | mrun_cons ho s un m m1 runs m2 :
      hash_order_ok ho → merge ho m s = (m1, Ok un) → merge_run m1 runs m2 → merge_run m ((ho, s, un) :: runs) m2.
Definition run_set (r : run) : list transaction_postings := r.1.2.
Definition run_unmerged (r : run) : list transaction_postings := r.2.

(** The lines of [l] that are not in [seen], each where it first occurs. *)
Fixpoint new_lines (seen l : list str) : list str :=
  match l with
  | [] => []
  | x :: l => if decide (x ∈ seen) then new_lines seen l else x :: new_lines (x :: seen) l
  end.

(** [q] says what the postings [ps] say, which were merged in this order:
    amount and reality are those of the first; the account is that of the first whose
    account is known, if there is one; it is cleared if one is, pending if one is and
    none is cleared; the balance is that of the first that has one; of the value tags
    of a key the last counts; flags are united, and lines, in order. *)
Record composed (ps : list posting_internal) (q : posting_internal) : Prop := {
  cp_first : ∃ p rest, ps = p :: rest ∧
    p_amount (pi_raw q) = p_amount (pi_raw p) ∧ p_reality (pi_raw q) = p_reality (pi_raw p) ∧
    p_comment (pi_raw q) = p_comment (pi_raw p) ∧
    lines (pi_comment q) = lines (pi_comment p) ++ new_lines (lines (pi_comment p)) (rest ≫= λ p, lines (pi_comment p)) ∧
    (Forall unknown_account ps → p_account (pi_raw q) = p_account (pi_raw p));
  cp_account : ∀ before p after, ps = before ++ p :: after → Forall unknown_account before → ¬ unknown_account p →
    p_account (pi_raw q) = p_account (pi_raw p);
  cp_unknown : unknown_account q ↔ Forall unknown_account ps;
  cp_cleared : p_status (pi_raw q) = Some Cleared ↔ Exists (λ p, p_status (pi_raw p) = Some Cleared) ps;
  cp_no_status : p_status (pi_raw q) = None ↔ Forall (λ p, p_status (pi_raw p) = None) ps;
  cp_balance : ∀ b, p_balance (pi_raw q) = Some b ↔
    ∃ before p after, ps = before ++ p :: after ∧ Forall (λ p, p_balance (pi_raw p) = None) before ∧ p_balance (pi_raw p) = Some b;
  cp_tags : ∀ t, t ≠ s2l "unknown-account" → has_tag q t ↔ Exists (λ p, has_tag p t) ps;
  cp_values : ∀ k v, value_tags (pi_comment q) !! k = Some v ↔
    ∃ before p after, ps = before ++ p :: after ∧ value_tags (pi_comment p) !! k = Some v ∧
      Forall (λ p, value_tags (pi_comment p) !! k = None) after;
}.

(** The postings of a set with the number of their transaction and their number in it. *)
Definition numbered (s : list transaction_postings) : list (nat * nat * posting_internal) :=
  mjoin (imap (λ x tp, imap (λ y p, (x, y, p)) (tp_posts tp)) s).
(** The postings of the sets that were merged into place [pl] of the journal, in
    order, when posting [y] of transaction [x] of set [r] was merged into [loc r x y],
    except if the transaction was handed back ([back r x]). *)
Definition merged_at {A} `{EqDecision A} (sets : list (list transaction_postings)) (back : nat → nat → bool) (loc : nat → nat → nat → A)
    (pl : A) : list posting_internal :=
  mjoin (imap (λ r s, snd <$> filter (λ e, back r e.1.1 = false ∧ loc r e.1.1 e.1.2 = pl) (numbered s)) sets).
(** The transactions of a set that were handed back. *)
Definition handed (back : nat → bool) (s : list transaction_postings) : list transaction_postings :=
  mjoin (imap (λ x tp, if back x then [tp] else []) s).
(** Transaction [x] of set [r] is [tp] and was not handed back. *)
Definition kept_at (sets : list (list transaction_postings)) (back : nat → nat → bool) (r x : nat) (tp : transaction_postings) : Prop :=
  ∃ s, sets !! r = Some s ∧ s !! x = Some tp ∧ back r x = false.

(** Every posting of the sets, except those of transactions handed back, is at one place
    of the journal [out] (transaction, posting in it). *)
Record accounts_for (sets : list (list transaction_postings)) (back : nat → nat → bool) (loc : nat → nat → nat → nat * nat)
    (out : list transaction_postings) : Prop := {
  (** It is a place of the journal. *)
  af_in : ∀ r x y tp p, kept_at sets back r x tp → tp_posts tp !! y = Some p →
    ∃ tp' q, out !! (loc r x y).1 = Some tp' ∧ tp_posts tp' !! (loc r x y).2 = Some q;
  (** Two postings of one set are never merged into each other. *)
  af_one : ∀ r x y tp p x' y' tp' p', kept_at sets back r x tp → tp_posts tp !! y = Some p →
    kept_at sets back r x' tp' → tp_posts tp' !! y' = Some p' → loc r x y = loc r x' y' → x = x' ∧ y = y';
  (** The postings of one transaction stay in one transaction. *)
  af_trn : ∀ r x tp y p y' p', kept_at sets back r x tp → tp_posts tp !! y = Some p → tp_posts tp !! y' = Some p' →
    (loc r x y).1 = (loc r x y').1;
  (** The journal says of every posting what the postings merged into it say, and nothing else. *)
  af_says : ∀ a tp b q, out !! a = Some tp → tp_posts tp !! b = Some q → composed (merged_at sets back loc (a, b)) q;
  (** The header of a transaction (date, description, status, code, comment) is that of
      the first transaction merged into it, which is the only one of its set. *)
  af_head : ∀ a tp, out !! a = Some tp → ∃ r x tp0, kept_at sets back r x tp0 ∧ tp_trn tp = tp_trn tp0 ∧ tp_posts tp0 ≠ [] ∧
    (∀ y p, tp_posts tp0 !! y = Some p → (loc r x y).1 = a) ∧
    ∀ r' x' tp' y' p', r' ≤ r → kept_at sets back r' x' tp' → tp_posts tp' !! y' = Some p' → (loc r' x' y').1 = a → r' = r ∧ x' = x;
}.

(** * Order of the inputs *)
(** No two postings of different input sets are told to be the same only by their
    date, amount and account: if they soft match they also share a fingerprint. *)
Definition explicit (sets : list (list transaction_postings)) : Prop :=
  ∀ s s' rest tp tp' p p', sets ≡ₚ s :: s' :: rest → tp ∈ s → tp' ∈ s' → p ∈ tp_posts tp → p' ∈ tp_posts tp' →
    tp_date tp = tp_date tp' → soft_match p p' → share_fp p p'.
(** Two postings that come from the same inputs, merged in different orders. *)
Definition same_inputs (q q' : posting_internal) : Prop :=
  ∃ ps ps', composed ps q ∧ composed ps' q' ∧ ps ≡ₚ ps'.
(** The same journal but for the order of its transactions and of their postings, the
    headers of transactions, and the order of merging the inputs of a posting. *)
Definition same_up_to_order (out out' : list transaction_postings) : Prop :=
  ∃ out'', out'' ≡ₚ out' ∧ Forall2 (λ tp tp', ∃ ps, ps ≡ₚ tp_posts tp' ∧ Forall2 same_inputs (tp_posts tp) ps) out out''.
(** What the order of merging the inputs [ps] of a posting cannot change: status, flags,
    the set of lines, which values there are; and the amount, account, balance and
    values if the inputs that have one agree on it. *)
Record order_free (ps : list posting_internal) (q q' : posting_internal) : Prop := {
  of_status : p_status (pi_raw q) = p_status (pi_raw q');
  of_tags : tags (pi_comment q) = tags (pi_comment q');
  of_lines : ∀ l, l ∈ lines (pi_comment q) ↔ l ∈ lines (pi_comment q');
  of_amount : (∀ p p', p ∈ ps → p' ∈ ps → p_amount (pi_raw p) = p_amount (pi_raw p')) → p_amount (pi_raw q) = p_amount (pi_raw q');
  of_account : (∀ p p', p ∈ ps → p' ∈ ps → ¬ unknown_account p → ¬ unknown_account p' → p_account (pi_raw p) = p_account (pi_raw p')) →
    ¬ unknown_account q → p_account (pi_raw q) = p_account (pi_raw q');
  of_has_balance : is_Some (p_balance (pi_raw q)) ↔ is_Some (p_balance (pi_raw q'));
  of_balance : (∀ p p' b b', p ∈ ps → p' ∈ ps → p_balance (pi_raw p) = Some b → p_balance (pi_raw p') = Some b' → b = b') →
    p_balance (pi_raw q) = p_balance (pi_raw q');
  of_has_value : ∀ k, is_Some (value_tags (pi_comment q) !! k) ↔ is_Some (value_tags (pi_comment q') !! k);
  of_value : ∀ k, (∀ p p' v v', p ∈ ps → p' ∈ ps → value_tags (pi_comment p) !! k = Some v → value_tags (pi_comment p') !! k = Some v' → v = v') →
    value_tags (pi_comment q) !! k = value_tags (pi_comment q') !! k;
}.

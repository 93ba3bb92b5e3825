(** Specification vocabulary for the claims about merging (C01-C24), in terms of
    journals as built and input sets. *)
From Verif Require Import Base Types MergeModel SpecBase MergeSpec.
From Coq Require Import QArith.

(** Value of a decimal; equality of amounts, prices and balances is numeric in
    the quantity and exact in everything else. *)
Definition dec_value (d : decimal) : Q :=
  inject_Z (if d_neg d then - Z.of_N (d_mant d) else Z.of_N (d_mant d)) / (inject_Z (10 ^ Z.of_N (d_scale d))).
Definition same_amount (a b : amount) : Prop :=
  dec_value (a_quantity a) == dec_value (a_quantity b) ∧ a_commodity a = a_commodity b.
Definition same_price (a b : price) : Prop :=
  match a, b with
  | PriceUnit a, PriceUnit b | PriceTotal a, PriceTotal b => same_amount a b
  | _, _ => False
  end.
Definition same_opt {A} (R : A → A → Prop) (a b : option A) : Prop :=
  match a, b with Some a, Some b => R a b | None, None => True | _, _ => False end.
Definition same_posting_amount (a b : posting_amount) : Prop :=
  same_amount (pa_amount a) (pa_amount b) ∧
  same_opt same_price (pa_lot_price a) (pa_lot_price b) ∧
  same_opt same_price (pa_price a) (pa_price b).
Definition same_balance (a b : balance) : Prop :=
  match a, b with
  | BalZero, BalZero => True
  | BalAmount a, BalAmount b => same_amount a b
  | _, _ => False
  end.

(** Soft match of two postings, as README.md states it (the date is compared
    separately). *)
Definition soft_match (a b : posting_internal) : Prop :=
  same_opt same_posting_amount (p_amount (pi_raw a)) (p_amount (pi_raw b)) ∧
  (∀ x y, p_balance (pi_raw a) = Some x → p_balance (pi_raw b) = Some y → same_balance x y) ∧
  (¬ unknown_account a → ¬ unknown_account b → p_account (pi_raw a) = p_account (pi_raw b)).

(** Existing posting number [i] shares a fingerprint with [p]; soft matches [p]
    under date [d]. *)
Definition fp_match_at (j : journal) (p : posting_internal) (i : nat) : Prop :=
  ∃ x, j_posts j !! i = Some x ∧ share_fp (jp_post x) p.
Definition soft_match_at (j : journal) (d : date) (p : posting_internal) (i : nat) : Prop :=
  ∃ x, j_posts j !! i = Some x ∧ jp_date x = d ∧ soft_match (jp_post x) p.

(** [i] is the destination of source posting [p] of a transaction dated [d]. *)
Definition selects (j : journal) (d : date) (p : posting_internal) (i : nat) : Prop :=
  (fp_match_at j p i ∧ ∀ k, fp_match_at j p k → k = i) ∨
  ((∀ k, ¬ fp_match_at j p k) ∧ soft_match_at j d p i ∧ ∀ k, soft_match_at j d p k → k = i).
(** [p] matches nothing. *)
Definition matches_nothing (j : journal) (d : date) (p : posting_internal) : Prop :=
  (∀ k, ¬ fp_match_at j p k) ∧ ∀ k, ¬ soft_match_at j d p k.
(** [p] soft matches several existing postings, and fingerprint matches none. *)
Definition ambiguous (j : journal) (d : date) (p : posting_internal) : Prop :=
  (∀ k, ¬ fp_match_at j p k) ∧ ∃ i k, i ≠ k ∧ soft_match_at j d p i ∧ soft_match_at j d p k.
(** [p] fingerprint matches several existing postings. *)
Definition conflicting (j : journal) (p : posting_internal) : Prop :=
  ∃ i k, i ≠ k ∧ fp_match_at j p i ∧ fp_match_at j p k.
(** An input transaction to be merged rather than returned. *)
Definition to_merge (j : journal) (tp : transaction_postings) : Prop :=
  tp_posts tp ≠ [] ∧ ∀ p, p ∈ tp_posts tp → ¬ ambiguous j (tp_date tp) p.

(** Status only advances. *)
Definition status_le (a b : option status) : Prop :=
  a = b ∨ a = None ∨ (a = Some Pending ∧ b = Some Cleared).

(** [q] is [p] after any number of merges into it. *)
Record post_refines (p q : posting_internal) : Prop := {
  pr_amount : p_amount (pi_raw q) = p_amount (pi_raw p);
  pr_reality : p_reality (pi_raw q) = p_reality (pi_raw p);
  pr_rawcomment : p_comment (pi_raw q) = p_comment (pi_raw p);
  pr_account : p_account (pi_raw q) = p_account (pi_raw p) ∨ unknown_account p;
  pr_balance : p_balance (pi_raw p) = None ∨ p_balance (pi_raw q) = p_balance (pi_raw p);
  pr_status : status_le (p_status (pi_raw p)) (p_status (pi_raw q));
  pr_tags : ∀ t, has_tag p t → t ≠ s2l "unknown-account" → has_tag q t;
  pr_unknown : unknown_account q → unknown_account p;
  pr_lines : lines (pi_comment p) `prefix_of` lines (pi_comment q);
  pr_values : ∀ k, is_Some (value_tags (pi_comment p) !! k) → is_Some (value_tags (pi_comment q) !! k);
}.

(** [b] is transaction [a] with its postings refined in place and possibly new
    postings at the end. *)
Definition trn_extends (a b : transaction_postings) : Prop :=
  tp_trn b = tp_trn a ∧
  ∃ ps extra, tp_posts b = ps ++ extra ∧ Forall2 post_refines (tp_posts a) ps.

(** Posting [q] of the journal contains source posting [p]. *)
Record contains_source (q p : posting_internal) : Prop := {
  cs_tags : ∀ t, has_tag p t → t ≠ s2l "unknown-account" → has_tag q t;
  cs_lines : ∀ l, l ∈ lines (pi_comment p) → l ∈ lines (pi_comment q);
  cs_values : value_tags (pi_comment p) ⊆ value_tags (pi_comment q);
}.

(** An unmerged transaction: same header, same postings in order except for
    added tags that begin with [candidate-]. *)
Definition returned_unmerged (tp tp' : transaction_postings) : Prop :=
  tp_trn tp' = tp_trn tp ∧
  Forall2 (λ p p', pi_raw p' = pi_raw p ∧ lines (pi_comment p') = lines (pi_comment p) ∧
                   value_tags (pi_comment p') = value_tags (pi_comment p) ∧
                   ∀ t, has_tag p' t ↔ has_tag p t ∨ (has_tag p' t ∧ candidate_tag t))
    (tp_posts tp) (tp_posts tp').

(** Equality up to candidate tags. *)
Definition equal_but_candidates (tp tp' : transaction_postings) : Prop :=
  tp_trn tp' = tp_trn tp ∧
  Forall2 (λ p p', pi_raw p' = pi_raw p ∧ lines (pi_comment p') = lines (pi_comment p) ∧
                   value_tags (pi_comment p') = value_tags (pi_comment p) ∧
                   ∀ t, ¬ candidate_tag t → (has_tag p' t ↔ has_tag p t))
    (tp_posts tp) (tp_posts tp').

(** Sum of the amounts in one commodity. *)
Definition post_value (c : commodity) (p : posting_internal) : Q :=
  match p_amount (pi_raw p) with
  | Some a => if decide (a_commodity (pa_amount a) = c) then dec_value (a_quantity (pa_amount a)) else 0
  | None => 0
  end.
Definition posts_value (c : commodity) (ps : list posting_internal) : Q :=
  foldr (λ p s, (post_value c p + s)%Q) 0 ps.

(** The conditions under which a set is accepted, without reference to how
    lookups are computed. *)
Record acceptable (j : journal) (tps : list transaction_postings) : Prop := {
  (** every posting has a fingerprint and no candidate tag; *)
  ac_mergeable : ∀ p, p ∈ all_posts tps → mergeable p;
  (** no fingerprint is repeated in the set; *)
  ac_distinct : fps_distinct (all_posts tps);
  (** no posting fingerprint matches several existing postings; *)
  ac_no_conflict : ∀ p, p ∈ all_posts tps → ¬ conflicting j p;
  (** no unambiguous transaction selects postings of several transactions; *)
  ac_one_trn : ∀ tp p q i k x y, tp ∈ tps → to_merge j tp → p ∈ tp_posts tp → q ∈ tp_posts tp →
    selects j (tp_date tp) p i → selects j (tp_date tp) q k →
    j_posts j !! i = Some x → j_posts j !! k = Some y → jp_trn x = jp_trn y;
  (** no existing posting is selected twice. *)
  ac_one_source : ∀ a b a' b' tp tp' p p' i,
    tps !! a = Some tp → tp_posts tp !! b = Some p → tps !! a' = Some tp' → tp_posts tp' !! b' = Some p' →
    to_merge j tp → to_merge j tp' →
    selects j (tp_date tp) p i → selects j (tp_date tp') p' i → a = a' ∧ b = b';
}.

(** How a transaction is handed back: each ambiguous posting has, for each
    existing posting it soft matches, one tag [candidate-F] with [F] a
    fingerprint of that posting, and differs in nothing else; every other
    posting is as it was. *)
Definition candidate_tagged (j : journal) (d : date) (p p' : posting_internal) : Prop :=
  pi_raw p' = pi_raw p ∧ lines (pi_comment p') = lines (pi_comment p) ∧
  value_tags (pi_comment p') = value_tags (pi_comment p) ∧
  ∃ (l : list nat) (fs : list str), NoDup l ∧ (∀ i, i ∈ l ↔ soft_match_at j d p i) ∧
    Forall2 (λ i f, ∃ x, j_posts j !! i = Some x ∧ has_fp (jp_post x) f) l fs ∧
    ∀ t, has_tag p' t ↔ has_tag p t ∨ ∃ f, f ∈ fs ∧ t = s2l "candidate-" ++ f.
Definition handed_back (j : journal) (tp tp' : transaction_postings) : Prop :=
  tp_trn tp' = tp_trn tp ∧
  Forall2 (λ p p', (ambiguous j (tp_date tp) p ∧ candidate_tagged j (tp_date tp) p p') ∨
                   (¬ ambiguous j (tp_date tp) p ∧ p' = p)) (tp_posts tp) (tp_posts tp').

(** An input transaction that becomes a new transaction. *)
Definition becomes_new (j : journal) (tp : transaction_postings) : Prop :=
  tp_posts tp ≠ [] ∧ ∀ p, p ∈ tp_posts tp → matches_nothing j (tp_date tp) p.
(** [p] is added as a new posting when [tps] is merged. *)
Definition newly_added (j : journal) (tps : list transaction_postings) (p : posting_internal) : Prop :=
  ∃ tp, tp ∈ tps ∧ to_merge j tp ∧ p ∈ tp_posts tp ∧ matches_nothing j (tp_date tp) p.

(** A history of merges, each with its own hash iteration order, all successful
    and without unmerged transactions. *)
Inductive clean_run : merger → list (hash_order * list transaction_postings) → merger → Prop :=
  | run_nil m : clean_run m [] m
  | run_cons ho s m m1 runs m2 :
      hash_order_ok ho → merge ho m s = (m1, Ok []) → clean_run m1 runs m2 → clean_run m ((ho, s) :: runs) m2.

(** Every posting is recorded under the date of its transaction. *)
Definition dates_agree (j : journal) : Prop :=
  ∀ x h, x ∈ j_posts j → j_trns j !! jp_trn x = Some h → jp_date x = t_date (ti_raw h).

(** Reference semantics of merging, after README.md "Matching algorithm" and
    "Existing posting lookup": no indexes, every lookup scans all existing
    postings.  The theorems relate [merge] and [build] to it. *)
From Verif Require Import Base Types CommentModel MergeModel SpecBase.

(** An existing posting: the number of the transaction it belongs to, the date
    it is recorded under for soft matching, and the posting itself. *)
Record jpost := JP { jp_trn : nat; jp_date : date; jp_post : posting_internal }.

(** A journal under construction: transactions (without postings) and postings,
    both in order of creation. *)
Record journal := Journal { j_trns : list transaction_internal; j_posts : list jpost }.
Definition journal_new : journal := Journal [] [].

(** The journal as transactions with their postings, in order of creation. *)
Definition journal_trns (j : journal) : list transaction_postings :=
  imap (λ t h, TP h (jp_post <$> filter (λ x, jp_trn x = t) (j_posts j))) (j_trns j).

#[export] Instance fp_tag_dec t : Decision (fp_tag t).
Proof.
  refine (cast_if (decide (take 3 t = s2l "fp-"))).
  - exists (drop 3 t). rewrite <- (take_drop 3 t) at 1. by f_equal.
  - by intros [s ->].
Defined.
(** Decision procedure for [share_fp]. *)
Definition share_fpb (p q : posting_internal) : bool :=
  existsb (λ f, bool_decide (fp_tag f)) (elements (tags (pi_comment p) ∩ tags (pi_comment q))).

(** Existing postings with a common fingerprint; existing postings recorded
    under date [d] that soft match. *)
Definition fp_hits (j : journal) (p : posting_internal) : list nat :=
  positions (λ x, share_fpb (jp_post x) p) (j_posts j).
Definition soft_hits (j : journal) (d : date) (p : posting_internal) : list nat :=
  positions (λ x, bool_decide (jp_date x = d) && matches (jp_post x) p) (j_posts j).

Inductive verdict := VMerge (i : nat) | VNew | VAmbiguous (l : list nat) | VConflict.

(** Existing posting lookup. *)
Definition lookup_posting (j : journal) (d : date) (p : posting_internal) : verdict :=
  match fp_hits j p with
  | [i] => VMerge i
  | _ :: _ :: _ => VConflict
  | [] =>
      match soft_hits j d p with
      | [] => VNew
      | [i] => VMerge i
      | l => VAmbiguous l
      end
  end.

Definition verdicts (j : journal) (tp : transaction_postings) : list verdict :=
  lookup_posting j (tp_date tp) <$> tp_posts tp.

Definition is_ambiguous (v : verdict) : bool := match v with VAmbiguous _ => true | _ => false end.
(** Input transactions that are not merged: no postings, or an ambiguous one. *)
Definition left_out (j : journal) (tp : transaction_postings) : bool :=
  match tp_posts tp with [] => true | _ => existsb is_ambiguous (verdicts j tp) end.

(** Destinations selected by the postings of an input transaction. *)
Definition dests (j : journal) (tp : transaction_postings) : list nat :=
  omap (λ v, match v with VMerge i => Some i | _ => None end) (verdicts j tp).
(** All destinations selected by a set, over transactions that are merged. *)
Definition all_dests (j : journal) (tps : list transaction_postings) : list nat :=
  tps ≫= (λ tp, if left_out j tp then [] else dests j tp).

(** The conditions under which a set is accepted. *)
Record valid_set (j : journal) (tps : list transaction_postings) : Prop := {
  vs_mergeable : ∀ p, p ∈ all_posts tps → mergeable p;
  vs_distinct : fps_distinct (all_posts tps);
  vs_no_conflict : ∀ tp p, tp ∈ tps → p ∈ tp_posts tp → (length (fp_hits j p) ≤ 1)%nat;
  vs_one_trn : ∀ tp i k x y, tp ∈ tps → left_out j tp = false →
    i ∈ dests j tp → k ∈ dests j tp →
    j_posts j !! i = Some x → j_posts j !! k = Some y → jp_trn x = jp_trn y;
  vs_dests_distinct : NoDup (all_dests j tps);
}.

(** Applying one posting: merge into existing posting [i], or append to
    transaction [t]. *)
Definition apply_posting (t : nat) (d : date) (ps : list jpost) (pv : posting_internal * verdict)
  : list jpost :=
  match pv.2 with
  | VMerge i => alter (λ x, JP (jp_trn x) (jp_date x) (merge_posting (jp_post x) pv.1)) i ps
  | VNew => ps ++ [JP t d pv.1]
  | _ => ps
  end.

(** Applying one input transaction; lookups are made in [j0], the journal before
    the whole set. *)
Definition apply_trn (j0 : journal) (j : journal) (tp : transaction_postings) : journal :=
  if left_out j0 tp then j else
  let pvs := zip (tp_posts tp) (verdicts j0 tp) in
  match dests j0 tp ≫= (λ i, option_list (jp_trn <$> j_posts j0 !! i)) with
  | t :: _ => Journal (j_trns j) (foldl (apply_posting t (tp_date tp)) (j_posts j) pvs)
  | [] => Journal (j_trns j ++ [tp_trn tp])
                  (foldl (apply_posting (length (j_trns j)) (tp_date tp)) (j_posts j) pvs)
  end.

(** Merging a set. *)
Definition spec_merge (j : journal) (tps : list transaction_postings) : journal :=
  foldl (apply_trn j) j tps.

(** [p'] is [p] with, for each existing posting in [l], one tag
    [candidate-F], F a fingerprint of that posting; nothing else differs. *)
Definition candidates_added (j : journal) (l : list nat) (p p' : posting_internal) : Prop :=
  pi_raw p' = pi_raw p ∧ lines (pi_comment p') = lines (pi_comment p) ∧
  value_tags (pi_comment p') = value_tags (pi_comment p) ∧
  ∃ fs, Forall2 (λ i f, ∃ x, j_posts j !! i = Some x ∧ has_fp (jp_post x) f) l fs ∧
        tags (pi_comment p') = tags (pi_comment p) ∪ list_to_set ((λ f, s2l "candidate-" ++ f) <$> fs).

(** How an input transaction that is left out is returned. *)
Definition returned_as (j : journal) (tp tp' : transaction_postings) : Prop :=
  tp_trn tp' = tp_trn tp ∧
  Forall2 (λ p p', match lookup_posting j (tp_date tp) p with
                   | VAmbiguous l => candidates_added j l p p'
                   | _ => p' = p
                   end) (tp_posts tp) (tp_posts tp').

(** Well formed journals: postings belong to existing transactions, transactions
    have postings, postings are mergeable, fingerprints are unique. *)
Record journal_wf (j : journal) : Prop := {
  jw_parent : ∀ x, x ∈ j_posts j → (jp_trn x < length (j_trns j))%nat;
  jw_nonempty : ∀ t, (t < length (j_trns j))%nat → ∃ x, x ∈ j_posts j ∧ jp_trn x = t;
  jw_mergeable : ∀ x, x ∈ j_posts j → mergeable (jp_post x);
  jw_distinct : fps_distinct (jp_post <$> j_posts j);
}.

(** Representation: when a merger (with its indexes) stands for a journal. *)
Record represents (m : merger) (j : journal) : Prop := {
  rep_posts : post_arena (m_posts m) = (λ x, PostHolder (jp_trn x) (jp_post x)) <$> j_posts j;
  rep_by_date : ∀ d, posts_by_date (m_posts m) !! d =
    opt_list (positions (λ x, bool_decide (jp_date x = d)) (j_posts j));
  rep_by_fp : ∀ f i, post_by_fingerprint (m_posts m) !! f = Some i ↔
    ∃ x, j_posts j !! i = Some x ∧ has_fp (jp_post x) f;
  rep_trns : trn_arena (m_trns m) =
    imap (λ t h, TrnHolder h (positions (λ x, bool_decide (jp_trn x = t)) (j_posts j))) (j_trns j);
  rep_trns_by_date : ∀ d, trns_by_date (m_trns m) !! d =
    opt_list (positions (λ h, bool_decide (t_date (ti_raw h) = d)) (j_trns j));
}.

(** The mergers a user can get: created empty, then any calls of [merge],
    successful or not, each with any hash iteration order. *)
Inductive reachable : merger → Prop :=
  | reach_new : reachable merger_new
  | reach_merge m ho tps : reachable m → hash_order_ok ho → reachable (merge ho m tps).1.

(** The merging of src/merge with an order of its own for every iteration over a
    hash table, instead of one function of the contents for all of them.

    The places at which a run iterates form a tree: [os] gives the order used at each,
    and [at_ os n] those of the [n]-th part of the work.  Nothing relates the orders of
    two places, so a table iterated twice may be listed differently each time: more
    than Rust allows, where a table not changed in between keeps its order. *)
From Verif Require Import Base Types CommentModel MergeModel CmdModel.
Open Scope N_scope.

Definition orders := list nat → hash_order.
Definition now (os : orders) : hash_order := os [].
Definition at_ (os : orders) (n : nat) : orders := λ place, os (n :: place).

(** src/merge/posting.rs:183-215: two iterations over the tags. *)
Definition input_from_posting_internal_free (os : orders) (p : posting_internal) (d : date) : result input :=
  if existsb is_candidate (ho_set (now (at_ os 0)) (tags (pi_comment p))) then Err ECandidateTag
  else if negb (existsb is_fingerprint (ho_set (now (at_ os 1)) (tags (pi_comment p)))) then Err ENoFingerprint
  else Ok (Input d p).

(** src/merge/merger.rs:268-275. *)
Fixpoint add_candidates_free (os : orders) (ip : indexed_postings) (i : input) (idxs : list nat) : result input :=
  match idxs with
  | [] => Ok i
  | x :: idxs =>
      let! h := posts_get ip x in
      let! fp := primary_fingerprint (now (at_ os 0)) (pi_comment (ph_posting h)) in
      add_candidates_free (at_ os 1) ip (input_add_tag i (CANDIDATE_FP_PREFIX ++ fp)) idxs
  end.

(** src/merge/merger.rs:228-287. *)
Definition determine_posting_action_free (os : orders) (m : merger) (i : input) : result (input * option post_action) :=
  let! r := find_matching_postings (now (at_ os 0)) (m_posts m) i in
  match r with
  | MatchFingerprint (IOne x) => Ok (i, Some (PMergeInto x))
  | MatchFingerprint (IMany xs) =>
      let! _ := rmapM (posts_get (m_posts m)) xs in Err EManyFingerprint
  | MatchSoft (IOne x) => Ok (i, Some (PMergeInto x))
  | MatchSoft (IMany xs) =>
      let! i := add_candidates_free (at_ os 1) (m_posts m) i xs in Ok (i, None)
  | MatchZero => Ok (i, Some PNew)
  end.

(** src/merge/merger.rs:180-193. *)
Fixpoint process_posts_free (os : orders) (m : merger) (d : date) (seen : gset str)
    (acc : merge_actions) (posts : list posting_internal) : result (gset str * merge_actions) :=
  match posts with
  | [] => Ok (seen, acc)
  | p :: posts =>
      let! i := input_from_posting_internal_free (at_ os 0) p d in
      let! seen := see_fingerprints seen
                     (fingerprints_from_comment (now (at_ os 1)) (pi_comment (in_posting i))) in
      let! (i, a) := determine_posting_action_free (at_ os 2) m i in
      process_posts_free (at_ os 3) m d seen (acc_push acc i a) posts
  end.

(** src/merge/merger.rs:162-226.  The set of transactions matched (301-308) is iterated
    only for its single element or for the text of an error. *)
Definition to_transaction_merge_action_free (os : orders) (m : merger) (seen : gset str)
    (tp : transaction_postings) : result (gset str * trn_action) :=
  match tp_posts tp with
  | [] => Ok (seen, TLeave tp)
  | posts =>
      let trn := tp_trn tp in
      let! (seen, acts) :=
        process_posts_free os m (t_date (ti_raw trn)) seen (MActions []) posts in
      match acts with
      | MLeave l => Ok (seen, TLeave (TP trn (in_posting <$> l)))
      | MActions l =>
          let! dest := find_existing_dest_trn m l in
          Ok (seen, match dest with Some t => TMergeInto trn l t | None => TNew trn l end)
      end
  end.

(** src/merge/merger.rs:35-51. *)
Fixpoint make_pending_free (os : orders) (m : merger) (seen : gset str)
    (tps : list transaction_postings) : result (list trn_action) :=
  match tps with
  | [] => Ok []
  | tp :: tps =>
      let! (seen, a) := to_transaction_merge_action_free (at_ os 0) m seen tp in
      let! l := make_pending_free (at_ os 1) m seen tps in
      Ok (a :: l)
  end.

(** src/merge/merger.rs:53-111: the map from destination to source postings is listed
    in any order [listed]. *)
Definition check_pending_free (listed : gmap nat (list input) → list (nat * list input)) (m : merger)
    (pending : list trn_action) : result unit :=
  check_entries m (listed (sources_by_dest pending)).

(** src/merge/merger.rs:143-160. *)
Fixpoint apply_post_actions_free (os : orders) (m : merger) (dest : nat)
    (posts : list (input * post_action)) : merger * result unit :=
  match posts with
  | [] => (m, Ok tt)
  | (i, PNew) :: posts =>
      match posts_add (now (at_ os 0)) (m_posts m) i dest with
      | (ip, Ok idx) =>
          match trns_add_post (m_trns m) dest idx with
          | (it, Ok _) => apply_post_actions_free (at_ os 1) (Merger ip it) dest posts
          | (it, r) => (Merger ip it, r)
          end
      | (ip, Err e) => (Merger ip (m_trns m), Err e)
      | (ip, Panic) => (Merger ip (m_trns m), Panic)
      end
  | (i, PMergeInto x) :: posts =>
      match posts_merge_into (now (at_ os 0)) (m_posts m) x i with
      | (ip, Ok _) => apply_post_actions_free (at_ os 1) (Merger ip (m_trns m)) dest posts
      | (ip, r) => (Merger ip (m_trns m), r)
      end
  end.

(** src/merge/merger.rs:113-141. *)
Fixpoint apply_pending_free (os : orders) (m : merger) (pending : list trn_action)
  : merger * result (list transaction_postings) :=
  match pending with
  | [] => (m, Ok [])
  | TNew trn posts :: pending =>
      let '(it, t) := trns_add (m_trns m) (TrnHolder trn []) in
      match apply_post_actions_free (at_ os 0) (Merger (m_posts m) it) t posts with
      | (m, Ok _) => apply_pending_free (at_ os 1) m pending
      | (m, Err e) => (m, Err e)
      | (m, Panic) => (m, Panic)
      end
  | TMergeInto _ posts t :: pending =>
      match apply_post_actions_free (at_ os 0) m t posts with
      | (m, Ok _) => apply_pending_free (at_ os 1) m pending
      | (m, Err e) => (m, Err e)
      | (m, Panic) => (m, Panic)
      end
  | TLeave tp :: pending =>
      let '(m, r) := apply_pending_free (at_ os 1) m pending in
      (m, rmap (λ l, tp :: l) r)
  end.

(** src/merge/merger.rs:29-33. *)
Definition merge_free (os : orders) (listed : gmap nat (list input) → list (nat * list input)) (m : merger)
    (tps : list transaction_postings) : merger * result (list transaction_postings) :=
  match make_pending_free (at_ os 0) m ∅ tps with
  | Ok pending =>
      match check_pending_free listed m pending with
      | Ok _ => apply_pending_free (at_ os 1) m pending
      | Err e => (m, Err e)
      | Panic => (m, Panic)
      end
  | Err e => (m, Err e)
  | Panic => (m, Panic)
  end.

(** Comments are written from their tables: src/internal.rs:57-59, 62-79, 100-114. *)
Definition transaction_of_postings_free (os : orders) (tp : transaction_postings) : transaction :=
  set_tpostings (imap (λ i p, posting_of (now (at_ os (S i))) p) (tp_posts tp)) (transaction_of (now (at_ os 0)) (tp_trn tp)).
Definition into_ledger_free (os : orders) (tps : list transaction_postings) : ledger :=
  ledger_from_transactions (imap (λ i tp, transaction_of_postings_free (at_ os i) tp) tps).

(** The orders in which the tables of src/merge/merger.rs:60-87 are listed, by place. *)
Definition dest_orders := list nat → gmap nat (list input) → list (nat * list input).
Definition dests_at (ds : dest_orders) (n : nat) : dest_orders := λ place, ds (n :: place).

(** src/merge/cmd.rs:29-32. *)
Fixpoint merge_sets_free (os : orders) (ds : dest_orders) (m : merger) (un : list transaction_postings)
    (sets : list (list transaction_postings)) : result (merger * list transaction_postings) :=
  match sets with
  | [] => Ok (m, un)
  | s :: sets =>
      match merge_free (at_ os 0) (ds []) m s with
      | (m, Ok u) => merge_sets_free (at_ os 1) (dests_at ds 1) m (un ++ u) sets
      | (_, Err e) => Err e
      | (_, Panic) => Panic
      end
  end.
(** src/merge/cmd.rs:28-33. *)
Fixpoint merge_inputs_free (E : env) (os : orders) (ds : dest_orders) (m : merger) (un : list transaction_postings)
    (inputs : list filespec) : io (merger * list transaction_postings) :=
  match inputs with
  | [] => io_ret (m, un)
  | f :: inputs =>
      do! sets := read_sources E (now (at_ os 0)) f in
      do! (m, un) := io_of (merge_sets_free (at_ os 1) (dests_at ds 0) m un sets) in
      merge_inputs_free E (at_ os 2) (dests_at ds 1) m un inputs
  end.
(** src/merge/cmd.rs:35-53. *)
Definition write_unmerged_free (E : env) (os : orders) (f : option filespec) (un : list transaction_postings) : io unit :=
  match un, f with
  | [], _ => io_ret tt
  | _ :: _, Some f => write_ledger E f (into_ledger_free os un)
  | _ :: _, None => io_fail EUnmergedNoFile
  end.
(** src/merge/cmd.rs:23-60. *)
Definition merge_cmd_free (E : env) (os : orders) (ds : dest_orders) (inputs : list filespec) (unmerged : option filespec)
    (output : filespec) : io unit :=
  do! (m, un) := merge_inputs_free E (at_ os 0) ds merger_new [] inputs in
  do! _ := write_unmerged_free E (at_ os 1) unmerged un in
  do! tps := io_of (build (now (at_ os 2)) m) in
  write_ledger E output (into_ledger_free (at_ os 3) (strip_sources tps)).

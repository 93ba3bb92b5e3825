(** Model of src/merge/{merger,posting,transaction,matchset}.rs. *)
From Verif Require Import Base Types CommentModel.
Open Scope N_scope.

(** ** src/merge/matchset.rs *)

(** src/merge/matchset.rs:2-10, 96. *)
Inductive matchset (A : Type) := MZero | MOne (a : A) | MMany (l : list A).
Arguments MZero {A}.
Arguments MOne {A} a.
Arguments MMany {A} l.

(** src/merge/matchset.rs:70-91. *)
Definition ms_insert {A} `{EqDecision A} (m : matchset A) (v : A) : matchset A :=
  match m with
  | MZero => MOne v
  | MOne e => if decide (e = v) then MOne e else MMany [e; v]
  | MMany vs => if decide (v ∈ vs) then MMany vs else MMany (vs ++ [v])
  end.

(** src/merge/matchset.rs:40-47. *)
Definition ms_collect {A} `{EqDecision A} (l : list A) : matchset A := foldl ms_insert MZero l.

(** src/merge/matchset.rs:27-33 with the iterators 108-176. *)
Definition ms_list {A} (m : matchset A) : list A :=
  match m with MZero => [] | MOne a => [a] | MMany l => l end.

(** src/merge/matchset.rs:52-59. *)
Definition ms_len {A} (m : matchset A) : nat :=
  match m with MZero => 0%nat | MOne _ => 1%nat | MMany l => length l end.

(** ** src/merge/posting.rs *)

(** src/merge/posting.rs:177-180. *)
Record input := Input { in_date : date; in_posting : posting_internal }.

(** src/merge/posting.rs:231-234.  Arena indices are positions of a list that
    only grows: no removal happens before [build], so the generational arena
    never reuses a slot and its generation is constant. *)
Record post_holder := PostHolder { ph_parent : nat; ph_posting : posting_internal }.

(** src/merge/posting.rs:34-38. *)
Record indexed_postings := IP {
  post_arena : list post_holder;
  posts_by_date : gmap date (list nat);
  post_by_fingerprint : gmap str nat }.

(** src/merge/posting.rs:327-333. *)
Definition fingerprints_from_comment (ho : hash_order) (c : comment) : list str :=
  filter (λ t, is_true (is_fingerprint t)) (ho_set ho (tags c)).

(** src/merge/posting.rs:320-324. *)
Definition primary_fingerprint (ho : hash_order) (c : comment) : result str :=
  match fingerprints_from_comment ho c with
  | [] => Panic
  | f :: _ => Ok f
  end.

(** src/merge/posting.rs:183-215. *)
Definition input_from_posting_internal (ho : hash_order) (p : posting_internal) (d : date)
  : result input :=
  if existsb is_candidate (ho_set ho (tags (pi_comment p))) then Err ECandidateTag
  else if negb (existsb is_fingerprint (ho_set ho (tags (pi_comment p)))) then Err ENoFingerprint
  else Ok (Input d p).

(** src/merge/posting.rs:221-223. *)
Definition input_add_tag (i : input) (t : str) : input :=
  Input (in_date i) (PI (pi_raw (in_posting i))
                        (set_tags (λ s, {[t]} ∪ s) (pi_comment (in_posting i)))).

(** src/merge/posting.rs:268-287. *)
Definition matches (a b : posting_internal) : bool :=
  let unknown p := bool_decide (UNKNOWN_ACCOUNT ∈ tags (pi_comment p)) in
  let accounts_match :=
    if negb (unknown a) && negb (unknown b)
    then str_eqb (p_account (pi_raw a)) (p_account (pi_raw b)) else true in
  let amounts_match := opt_eqb posting_amount_eqb (p_amount (pi_raw a)) (p_amount (pi_raw b)) in
  let balances_match :=
    match p_balance (pi_raw a), p_balance (pi_raw b) with
    | Some x, Some y => balance_eqb x y
    | _, _ => true
    end in
  accounts_match && amounts_match && balances_match.

(** src/merge/posting.rs:289-318. *)
Definition merge_posting (dest src : posting_internal) : posting_internal :=
  let raw := pi_raw dest in
  let raw :=
    match p_status raw, p_status (pi_raw src) with
    | None, s => set_status s raw
    | Some _, None => raw
    | Some Pending, Some Cleared => set_status (Some Cleared) raw
    | Some _, Some _ => raw
    end in
  let raw :=
    match p_balance raw with
    | None => set_balance (p_balance (pi_raw src)) raw
    | Some _ => raw
    end in
  let dest_unknown := bool_decide (UNKNOWN_ACCOUNT ∈ tags (pi_comment dest)) in
  let src_unknown := bool_decide (UNKNOWN_ACCOUNT ∈ tags (pi_comment src)) in
  let '(raw, com) :=
    if dest_unknown && negb src_unknown
    then (set_account (p_account (pi_raw src)) raw,
          set_tags (λ t, t ∖ {[UNKNOWN_ACCOUNT]}) (pi_comment dest))
    else (raw, pi_comment dest) in
  let src_com := set_tags (λ t, t ∖ {[UNKNOWN_ACCOUNT]}) (pi_comment src) in
  PI raw (merge_from com src_com).

(** src/merge/posting.rs:73-75. *)
Definition posts_get (ip : indexed_postings) (i : nat) : result post_holder :=
  match post_arena ip !! i with Some h => Ok h | None => Panic end.

(** src/merge/posting.rs:98-117; also returns the index as left behind by a
    failure. *)
Fixpoint register_fingerprints (fps : list str) (i : nat) (m : gmap str nat)
  : gmap str nat * result unit :=
  match fps with
  | [] => (m, Ok tt)
  | fp :: fps =>
      match m !! fp with
      | Some j => if decide (j = i) then register_fingerprints fps i m else (m, Err EInternalClaim)
      | None => register_fingerprints fps i (<[fp := i]> m)
      end
  end.

(** [HashMap::entry(k).or_default().push(v)]. *)
Definition push_entry {K} `{Countable K} {A} (k : K) (v : A) (m : gmap K (list A))
  : gmap K (list A) := <[k := default [] (m !! k) ++ [v]]> m.

(** src/merge/posting.rs:54-65. *)
Definition posts_add (ho : hash_order) (ip : indexed_postings) (i : input) (parent : nat)
  : indexed_postings * result nat :=
  let fps := fingerprints_from_comment ho (pi_comment (in_posting i)) in
  let idx := length (post_arena ip) in
  let arena := post_arena ip ++ [PostHolder parent (in_posting i)] in
  match register_fingerprints fps idx (post_by_fingerprint ip) with
  | (m, Ok _) => (IP arena (push_entry (in_date i) idx (posts_by_date ip)) m, Ok idx)
  | (m, Err e) => (IP arena (posts_by_date ip) m, Err e)
  | (m, Panic) => (IP arena (posts_by_date ip) m, Panic)
  end.

(** src/merge/posting.rs:87-95. *)
Definition posts_merge_into (ho : hash_order) (ip : indexed_postings) (idx : nat) (i : input)
  : indexed_postings * result unit :=
  match register_fingerprints (fingerprints_from_comment ho (pi_comment (in_posting i))) idx
          (post_by_fingerprint ip) with
  | (m, Ok _) =>
      match post_arena ip !! idx with
      | Some h =>
          (IP (<[idx := PostHolder (ph_parent h) (merge_posting (ph_posting h) (in_posting i))]>
                 (post_arena ip)) (posts_by_date ip) m, Ok tt)
      | None => (IP (post_arena ip) (posts_by_date ip) m, Panic)
      end
  | (m, Err e) => (IP (post_arena ip) (posts_by_date ip) m, Err e)
  | (m, Panic) => (IP (post_arena ip) (posts_by_date ip) m, Panic)
  end.

(** src/merge/posting.rs:152-161. *)
Inductive matched_indices := IOne (i : nat) | IMany (l : list nat).
Inductive match_result := MatchFingerprint (m : matched_indices) | MatchSoft (m : matched_indices)
  | MatchZero.

(** src/merge/posting.rs:145-149 (with fingerprint_to_index, 67-69). *)
Definition find_posting_by_fingerprints (ho : hash_order) (ip : indexed_postings) (i : input)
  : matchset nat :=
  ms_collect (omap (λ fp, post_by_fingerprint ip !! fp)
                   (fingerprints_from_comment ho (pi_comment (in_posting i)))).

(** The lazily filtered iterator of src/merge/posting.rs:126-132 (with
    date_to_indices, 81-84). *)
Fixpoint soft_filter (ip : indexed_postings) (i : input) (idxs : list nat) : result (list nat) :=
  match idxs with
  | [] => Ok []
  | x :: idxs =>
      let! h := posts_get ip x in
      let! rest := soft_filter ip i idxs in
      Ok (if matches (ph_posting h) (in_posting i) then x :: rest else rest)
  end.

(** src/merge/posting.rs:119-141. *)
Definition find_matching_postings (ho : hash_order) (ip : indexed_postings) (i : input)
  : result match_result :=
  match find_posting_by_fingerprints ho ip i with
  | MOne x => Ok (MatchFingerprint (IOne x))
  | MMany xs => Ok (MatchFingerprint (IMany xs))
  | MZero =>
      let! soft := soft_filter ip i (default [] (posts_by_date ip !! in_date i)) in
      match ms_collect soft with
      | MOne x => Ok (MatchSoft (IOne x))
      | MMany xs => Ok (MatchSoft (IMany xs))
      | MZero => Ok MatchZero
      end
  end.

(** ** src/merge/transaction.rs *)

(** src/merge/transaction.rs:77-81. *)
Record trn_holder := TrnHolder { th_trn : transaction_internal; th_postings : list nat }.

(** src/merge/transaction.rs:14-17; arena indices as for postings. *)
Record indexed_trns := IT {
  trn_arena : list trn_holder;
  trns_by_date : gmap date (list nat) }.

(** src/merge/transaction.rs:62-67. *)
Definition trns_add (it : indexed_trns) (h : trn_holder) : indexed_trns * nat :=
  let idx := length (trn_arena it) in
  (IT (trn_arena it ++ [h]) (push_entry (t_date (ti_raw (th_trn h))) idx (trns_by_date it)), idx).

(** src/merge/transaction.rs:69-72. *)
Definition trns_add_post (it : indexed_trns) (trn post : nat) : indexed_trns * result unit :=
  match trn_arena it !! trn with
  | Some h =>
      (IT (<[trn := TrnHolder (th_trn h) (th_postings h ++ [post])]> (trn_arena it))
          (trns_by_date it), Ok tt)
  | None => (it, Panic)
  end.

(** [Arena::remove] on a slot that may be vacant. *)
Definition arena_remove {A} (ar : list (option A)) (i : nat) : result (list (option A) * A) :=
  match ar !! i with
  | Some (Some a) => Ok (<[i := None]> ar, a)
  | _ => Panic
  end.
Fixpoint arena_remove_all {A} (ar : list (option A)) (idxs : list nat)
  : result (list (option A) * list A) :=
  match idxs with
  | [] => Ok (ar, [])
  | i :: idxs =>
      let! (ar, a) := arena_remove ar i in
      let! (ar, l) := arena_remove_all ar idxs in
      Ok (ar, a :: l)
  end.

(** src/merge/transaction.rs:29-48. *)
Fixpoint date_trns (ar : list (option trn_holder)) (l : list (date * list nat))
  : result (list (date * list trn_holder)) :=
  match l with
  | [] => Ok []
  | (d, idxs) :: l =>
      let! (ar, hs) := arena_remove_all ar idxs in
      let! rest := date_trns ar l in
      Ok ((d, hs) :: rest)
  end.
Definition trns_into_iter (ho : hash_order) (it : indexed_trns) : result (list trn_holder) :=
  let! dts := date_trns (Some <$> trn_arena it) (ho_dates ho (list nat) (trns_by_date it)) in
  Ok (stable_sort (λ a b : date * list trn_holder, date_leb a.1 b.1) dts ≫= snd).

(** ** src/merge/merger.rs *)

(** src/merge/merger.rs:14-25. *)
Record merger := Merger { m_posts : indexed_postings; m_trns : indexed_trns }.
Definition merger_new : merger := Merger (IP [] ∅ ∅) (IT [] ∅).

(** src/merge/merger.rs:397-419. *)
Inductive post_action := PNew | PMergeInto (idx : nat).
Inductive trn_action :=
  | TNew (trn : transaction_internal) (posts : list (input * post_action))
  | TMergeInto (trn : transaction_internal) (posts : list (input * post_action)) (dest : nat)
  | TLeave (tp : transaction_postings).

(** src/merge/merger.rs:390-395. *)
Inductive merge_actions :=
  | MActions (l : list (input * post_action)) | MLeave (l : list input).

(** src/merge/merger.rs:359-383.  The MutCell around the value is transparent
    here (src/mutcell.rs:15-53): the closure does not panic. *)
Definition acc_push (acc : merge_actions) (i : input) (a : option post_action) : merge_actions :=
  match acc with
  | MActions l =>
      match a with
      | Some a => MActions (l ++ [(i, a)])
      | None => MLeave ((fst <$> l) ++ [i])
      end
  | MLeave l => MLeave (l ++ [i])
  end.

(** src/merge/merger.rs:268-275. *)
Fixpoint add_candidates (ho : hash_order) (ip : indexed_postings) (i : input) (idxs : list nat)
  : result input :=
  match idxs with
  | [] => Ok i
  | x :: idxs =>
      let! h := posts_get ip x in
      let! fp := primary_fingerprint ho (pi_comment (ph_posting h)) in
      add_candidates ho ip (input_add_tag i (CANDIDATE_FP_PREFIX ++ fp)) idxs
  end.

(** src/merge/merger.rs:228-287; returns the source posting as mutated. *)
Definition determine_posting_action (ho : hash_order) (m : merger) (i : input)
  : result (input * option post_action) :=
  let! r := find_matching_postings ho (m_posts m) i in
  match r with
  | MatchFingerprint (IOne x) => Ok (i, Some (PMergeInto x))
  | MatchFingerprint (IMany xs) =>
      let! _ := rmapM (posts_get (m_posts m)) xs in Err EManyFingerprint
  | MatchSoft (IOne x) => Ok (i, Some (PMergeInto x))
  | MatchSoft (IMany xs) =>
      let! i := add_candidates ho (m_posts m) i xs in Ok (i, None)
  | MatchZero => Ok (i, Some PNew)
  end.

(** src/merge/merger.rs:184-189. *)
Fixpoint see_fingerprints (seen : gset str) (fps : list str) : result (gset str) :=
  match fps with
  | [] => Ok seen
  | fp :: fps =>
      if decide (fp ∈ seen) then Err EDupFingerprint else see_fingerprints ({[fp]} ∪ seen) fps
  end.

(** src/merge/merger.rs:180-193. *)
Fixpoint process_posts (ho : hash_order) (m : merger) (d : date) (seen : gset str)
    (acc : merge_actions) (posts : list posting_internal) : result (gset str * merge_actions) :=
  match posts with
  | [] => Ok (seen, acc)
  | p :: posts =>
      let! i := input_from_posting_internal ho p d in
      let! seen := see_fingerprints seen
                     (fingerprints_from_comment ho (pi_comment (in_posting i))) in
      let! (i, a) := determine_posting_action ho m i in
      process_posts ho m d seen (acc_push acc i a) posts
  end.

(** src/merge/merger.rs:301-308. *)
Definition action_dests (posts : list (input * post_action)) : list nat :=
  omap (λ '(_, a), match a with PNew => None | PMergeInto x => Some x end) posts.

(** src/merge/merger.rs:293-330. *)
Definition find_existing_dest_trn (m : merger) (posts : list (input * post_action))
  : result (option nat) :=
  let! parents := rmapM (λ x, rmap ph_parent (posts_get (m_posts m) x)) (action_dests posts) in
  match elements (list_to_set parents : gset nat) with
  | [] => Ok None
  | [t] => Ok (Some t)
  | ts =>
      let! _ := rmapM (λ t, match trn_arena (m_trns m) !! t with
                            | Some h => Ok h | None => Panic end) ts in
      Err EManyTransactions
  end.

(** src/merge/merger.rs:162-226; also returns the updated set of fingerprints
    seen. *)
Definition to_transaction_merge_action (ho : hash_order) (m : merger) (seen : gset str)
    (tp : transaction_postings) : result (gset str * trn_action) :=
  match tp_posts tp with
  | [] => Ok (seen, TLeave tp)
  | posts =>
      let trn := tp_trn tp in
      let! (seen, acts) :=
        process_posts ho m (t_date (ti_raw trn)) seen (MActions []) posts in
      match acts with
      | MLeave l => Ok (seen, TLeave (TP trn (in_posting <$> l)))
      | MActions l =>
          let! dest := find_existing_dest_trn m l in
          Ok (seen, match dest with Some t => TMergeInto trn l t | None => TNew trn l end)
      end
  end.

(** src/merge/merger.rs:35-51. *)
Fixpoint make_pending_from (ho : hash_order) (m : merger) (seen : gset str)
    (tps : list transaction_postings) : result (list trn_action) :=
  match tps with
  | [] => Ok []
  | tp :: tps =>
      let! (seen, a) := to_transaction_merge_action ho m seen tp in
      let! l := make_pending_from ho m seen tps in
      Ok (a :: l)
  end.
Definition make_pending (ho : hash_order) (m : merger) (tps : list transaction_postings)
  : result (list trn_action) := make_pending_from ho m ∅ tps.

(** src/merge/merger.rs:60-87: the map from destination to source postings. *)
Definition sources_by_dest (pending : list trn_action) : gmap nat (list input) :=
  foldl (λ mp a,
    match a with
    | TMergeInto _ posts _ =>
        foldl (λ mp '(i, act),
          match act with PNew => mp | PMergeInto x => push_entry x i mp end) mp posts
    | _ => mp
    end) ∅ pending.

(** src/merge/merger.rs:53-111.  The order in which the map is visited only
    selects the error message. *)
Fixpoint check_entries (m : merger) (l : list (nat * list input)) : result unit :=
  match l with
  | [] => Ok tt
  | (x, srcs) :: l =>
      if (1 <? length srcs)%nat
      then let! _ := posts_get (m_posts m) x in Err ESameDestination
      else check_entries m l
  end.
Definition check_pending (m : merger) (pending : list trn_action) : result unit :=
  check_entries m (map_to_list (sources_by_dest pending)).

(** src/merge/merger.rs:143-160; state left behind and outcome. *)
Fixpoint apply_post_actions (ho : hash_order) (m : merger) (dest : nat)
    (posts : list (input * post_action)) : merger * result unit :=
  match posts with
  | [] => (m, Ok tt)
  | (i, PNew) :: posts =>
      match posts_add ho (m_posts m) i dest with
      | (ip, Ok idx) =>
          match trns_add_post (m_trns m) dest idx with
          | (it, Ok _) => apply_post_actions ho (Merger ip it) dest posts
          | (it, r) => (Merger ip it, r)
          end
      | (ip, Err e) => (Merger ip (m_trns m), Err e)
      | (ip, Panic) => (Merger ip (m_trns m), Panic)
      end
  | (i, PMergeInto x) :: posts =>
      match posts_merge_into ho (m_posts m) x i with
      | (ip, Ok _) => apply_post_actions ho (Merger ip (m_trns m)) dest posts
      | (ip, r) => (Merger ip (m_trns m), r)
      end
  end.

(** src/merge/merger.rs:113-141. *)
Fixpoint apply_pending (ho : hash_order) (m : merger) (pending : list trn_action)
  : merger * result (list transaction_postings) :=
  match pending with
  | [] => (m, Ok [])
  | TNew trn posts :: pending =>
      let '(it, t) := trns_add (m_trns m) (TrnHolder trn []) in
      match apply_post_actions ho (Merger (m_posts m) it) t posts with
      | (m, Ok _) => apply_pending ho m pending
      | (m, Err e) => (m, Err e)
      | (m, Panic) => (m, Panic)
      end
  | TMergeInto _ posts t :: pending =>
      match apply_post_actions ho m t posts with
      | (m, Ok _) => apply_pending ho m pending
      | (m, Err e) => (m, Err e)
      | (m, Panic) => (m, Panic)
      end
  | TLeave tp :: pending =>
      let '(m, r) := apply_pending ho m pending in
      (m, rmap (λ l, tp :: l) r)
  end.

(** src/merge/merger.rs:29-33: the merger after the call and its outcome (the
    unmerged transactions). *)
Definition merge (ho : hash_order) (m : merger) (tps : list transaction_postings)
  : merger * result (list transaction_postings) :=
  match make_pending ho m tps with
  | Ok pending =>
      match check_pending m pending with
      | Ok _ => apply_pending ho m pending
      | Err e => (m, Err e)
      | Panic => (m, Panic)
      end
  | Err e => (m, Err e)
  | Panic => (m, Panic)
  end.

(** src/merge/merger.rs:332-346 (with ConsumePostings::take, posting.rs:166-171). *)
Fixpoint build_from (posts : list (option post_holder)) (hs : list trn_holder)
  : result (list transaction_postings) :=
  match hs with
  | [] => Ok []
  | h :: hs =>
      let! (posts, ps) := arena_remove_all posts (th_postings h) in
      let! rest := build_from posts hs in
      Ok (TP (th_trn h) (ph_posting <$> ps) :: rest)
  end.
Definition build (ho : hash_order) (m : merger) : result (list transaction_postings) :=
  let! hs := trns_into_iter ho (m_trns m) in
  build_from (Some <$> post_arena (m_posts m)) hs.

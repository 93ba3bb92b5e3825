(** Literal journals for the examples beside the theorems about merging. *)
From Verif Require Import Base Types CommentModel MergeModel SpecBase BaseProofs MergeSpec MergeClaims
  MergeProofs MergePending MergeApply MergeBuild MergeClosed MergeLemmas MergePlaces MergeLaws MergeLaws2
  MergeLaws3 MergeLaws4 MergeReplay MergeLaws5.

Definition ex_amount (q : Z) : posting_amount :=
  PostingAmount (Amount (Dec (q <? 0)%Z 2 (Z.to_N (Z.abs q))) (Commodity (s2l "GBP") PosLeft)) None None.
Definition ex_post (account : str) (q : Z) (ts : list str) : posting_internal :=
  PI (Posting account Real (Some (ex_amount q)) None None None) (Comment [] (list_to_set ts) ∅).
Definition ex_tp (d : date) (desc : str) (ps : list posting_internal) : transaction_postings :=
  TP (TI (Transaction None d None None None desc []) (Comment [] ∅ ∅)) ps.

Definition day1 : date := (2020%Z, 1, 1).
Definition day2 : date := (2020%Z, 1, 2).
Definition bank : str := s2l "assets:bank".
Definition food : str := s2l "expenses:food".
Definition unknown : str := s2l "expenses:unknown".

(** An imported statement: two payments of 5.00 on the same day; the peer account
    of the first is not known. *)
Definition ex_t1 := ex_tp day1 (s2l "shop")
  [ex_post bank (-500) [s2l "fp-a1"]; ex_post unknown 500 [s2l "fp-a2"; s2l "unknown-account"]].
Definition ex_t2 := ex_tp day1 (s2l "market")
  [ex_post bank (-500) [s2l "fp-b1"]; ex_post food 500 [s2l "fp-b2"]].
Definition ex_t3 := ex_tp day2 (s2l "cafe")
  [ex_post bank (-300) [s2l "fp-c1"]; ex_post food 300 [s2l "fp-c2"]].
Definition ex_s0 := [ex_t3; ex_t1; ex_t2].
Definition ex_m0 : merger := (merge default_order merger_new ex_s0).1.
Definition ex_j0 : journal := spec_merge journal_new ex_s0.

(** A later set: knows the account of the first payment; its cafe payment has no
    fingerprint in common with the journal. *)
Definition ex_u1 := ex_tp day1 (s2l "SHOP")
  [ex_post bank (-500) [s2l "fp-a1"; s2l "fp-z1"]; ex_post food 500 [s2l "fp-a2"; s2l "groceries"]].
Definition ex_u2 := ex_tp day2 (s2l "CAFE")
  [ex_post bank (-300) [s2l "fp-z3"]; ex_post (s2l "expenses:tip") 20 [s2l "fp-z4"]].
Definition ex_u3 := ex_tp day2 (s2l "bus") [ex_post bank (-250) [s2l "fp-z5"]].
Definition ex_s1 := [ex_u1; ex_u2; ex_u3].
(** Ambiguous: soft matches the 5.00 postings of both payments. *)
Definition ex_u4 := ex_tp day1 (s2l "shop?") [ex_post food 500 [s2l "fp-y1"]; ex_post bank (-501) [s2l "fp-y2"]].
Definition ex_u5 := ex_tp day1 (s2l "nothing") [].

Lemma ex_m0_reachable : reachable ex_m0.
Proof. unfold ex_m0. constructor; [constructor|apply default_order_ok]. Qed.
Lemma ex_m0_represents : represents ex_m0 ex_j0.
Proof.
  destruct (merge default_order merger_new ex_s0) as [m' r] eqn:E.
  assert (r = Ok []) as ->.
  { replace r with (merge default_order merger_new ex_s0).2 by by rewrite E. by_compute. }
  destruct (merge_inv merger_new journal_new reach_new rep_new default_order ex_s0 m' [] default_order_ok E)
    as (_ & _ & H & _).
  unfold ex_m0. by rewrite E.
Qed.
Lemma merge_eq ho m tps r : (merge ho m tps).2 = r → merge ho m tps = ((merge ho m tps).1, r).
Proof. intros <-. by destruct (merge ho m tps). Qed.

(** Examples for C93 and C94. *)
From Verif Require Import Base Types CommentModel MergeModel SpecBase BaseProofs MergeSpec MergeClaims MergeBuild MergeProofs MergeLemmas
  MergePlaces MergeLaws MergeExamples CommentExamples ResolveClaims MergeResolve.
From Coq Require Import Lia.
Local Open Scope nat_scope.

(** [ex_u4] is ambiguous: food 5.00 could be either of two payments. *)
Definition rs_in := ex_u4 :: ex_s1.
Definition rs_u1 := ex_post food 500 [s2l "fp-y1"; s2l "candidate-fp-a2"; s2l "candidate-fp-b2"].
Definition rs_u2 := ex_post bank (-501) [s2l "fp-y2"].
Definition rs_un := ex_tp day1 (s2l "shop?") [rs_u1; rs_u2].
(** The user picks the second; another statement has been merged in between. *)
Definition rs_r1 := ex_post food 500 [s2l "fp-y1"; s2l "fp-b2"].
Definition rs_edited := ex_tp day1 (s2l "shop?") [rs_r1; rs_u2].
Definition rs_h : list (hash_order * list transaction_postings) := [(reverse_order, [ex_tp day2 (s2l "CAFE") [ex_post food 300 [s2l "fp-w1"]]])].
Definition rs_m1 := (merge default_order ex_m0 rs_in).1.
Definition rs_j2 := spec_merge (spec_merge ex_j0 rs_in) [ex_tp day2 (s2l "CAFE") [ex_post food 300 [s2l "fp-w1"]]].

Lemma rs_merge : merge default_order ex_m0 rs_in = (rs_m1, Ok [rs_un]).
Proof. apply merge_eq. by_compute. Qed.
Lemma step_represents m j ho s un : reachable m → represents m j → hash_order_ok ho → (merge ho m s).2 = Ok un →
  represents (merge ho m s).1 (spec_merge j s).
Proof.
  intros Hr Hj Hho E. destruct (merge ho m s) as [m' r] eqn:Em. simpl in E. subst r.
  by destruct (merge_inv m j Hr Hj ho s m' un Hho Em) as (_ & _ & H & _).
Qed.
Lemma rs_represents : represents (after rs_m1 rs_h) rs_j2.
Proof.
  unfold after, rs_h. cbn [foldl fst snd]. eapply step_represents.
  - unfold rs_m1. constructor; [exact ex_m0_reachable|exact default_order_ok].
  - unfold rs_m1. eapply step_represents; [exact ex_m0_reachable|exact ex_m0_represents|exact default_order_ok|].
    rewrite rs_merge. done.
  - exact reverse_order_ok.
  - instantiate (1 := []). by_compute.
Qed.
Ltac decide_tags := rewrite ?elem_of_union, ?elem_of_singleton; intuition congruence.
Lemma rs_resolves : resolves (s2l "fp-b2") rs_u1 rs_r1.
Proof.
  split_and!; [done..| |].
  - unfold has_tag. by_compute.
  - intros t. unfold has_tag, rs_u1, rs_r1, ex_post. cbn [pi_comment tags list_to_set].
    rewrite !elem_of_union, !elem_of_singleton, !elem_of_empty. split.
    + intros [->|[->|[]]]; [right|by left]. split; [by left|]. intros [s E]. done.
    + intros [->|[[->|[->|[->|[]]]] Hc]]; [by right; left|by left|..]; exfalso; apply Hc.
      * by exists (s2l "fp-a2").
      * by exists (s2l "fp-b2").
Qed.
Lemma rs_no_cand : no_candidates rs_u2.
Proof.
  intros t Ht [s ->]. unfold has_tag, rs_u2, ex_post in Ht. cbn [pi_comment tags list_to_set] in Ht.
  rewrite elem_of_union, elem_of_singleton, elem_of_empty in Ht. by destruct Ht as [?|[]].
Qed.
Lemma rs_resolution : resolution rs_un rs_edited.
Proof.
  split; [done|]. apply List.Forall2_cons; [left; exists (s2l "fp-b2"); exact rs_resolves|].
  apply List.Forall2_cons; [right; split; [exact rs_no_cand|done]|]. apply List.Forall2_nil.
Qed.
Lemma rs_unrelated u : u ∈ tp_posts rs_un → unrelated rs_h u.
Proof.
  intros Hu s p Hs Hp Hsh. apply elem_of_list_singleton in Hs as ->. simpl in Hp. apply elem_of_list_singleton in Hp as ->.
  apply share_fpb_spec in Hsh. unfold rs_un in Hu. cbn [tp_posts ex_tp] in Hu.
  repeat (apply elem_of_cons in Hu as [->|Hu]; [revert Hsh; vm_compute; discriminate|]). by apply elem_of_nil in Hu.
Qed.
Lemma rs_unambiguous u : u ∈ tp_posts rs_un → no_candidates u → ¬ ambiguous rs_j2 (tp_date rs_un) u.
Proof.
  intros Hu Hn Ha. unfold rs_un in Hu. cbn [tp_posts ex_tp] in Hu. apply elem_of_cons in Hu as [->|Hu].
  - apply (Hn (s2l "candidate-fp-a2")); [unfold has_tag; by_compute|by exists (s2l "fp-a2")].
  - apply elem_of_list_singleton in Hu as ->. apply ambiguous_is in Ha. revert Ha. vm_compute. discriminate.
Qed.
Lemma rs_one b b' r r' i i' x x' : tp_posts rs_edited !! b = Some r → tp_posts rs_edited !! b' = Some r' →
  selects rs_j2 (tp_date rs_un) r i → selects rs_j2 (tp_date rs_un) r' i' →
  j_posts rs_j2 !! i = Some x → j_posts rs_j2 !! i' = Some x' → jp_trn x = jp_trn x' ∧ (i = i' → b = b').
Proof.
  assert (lookup_posting rs_j2 (tp_date rs_un) rs_r1 = VMerge 5) as E1 by (vm_compute; reflexivity).
  assert (lookup_posting rs_j2 (tp_date rs_un) rs_u2 = VNew) as E2 by (vm_compute; reflexivity).
  assert (∀ b r i, [rs_r1; rs_u2] !! b = Some r → selects rs_j2 (tp_date rs_un) r i → b = 0 ∧ i = 5) as H.
  { intros c q k Hq Hk%selects_spec. destruct c as [|[|c]].
    - change (Some rs_r1 = Some q) in Hq. assert (q = rs_r1) as -> by congruence. split; [done|]. congruence.
    - change (Some rs_u2 = Some q) in Hq. assert (q = rs_u2) as -> by congruence. congruence.
    - change (@None posting_internal = Some q) in Hq. discriminate Hq. }
  intros Hb Hb' Hi Hi' Hx Hx'. destruct (H b r i Hb Hi) as [-> ->]. destruct (H b' r' i' Hb' Hi') as [-> ->].
  split; [congruence|done].
Qed.
Lemma rs_result :
  rmap (fmap (λ tp, (t_description (ti_raw (tp_trn tp)), length (tp_posts tp))))
    (build default_order (merge default_order (after rs_m1 rs_h) [rs_edited]).1) =
  Ok [(s2l "shop", 2); (s2l "market", 3); (s2l "cafe", 3); (s2l "bus", 1)].
Proof. by_compute. Qed.

(** The first payment again, under another description and with one posting. *)
Definition ct_p := ex_post bank (-500) [s2l "fp-a1"].
Definition ct_tp := ex_tp day2 (s2l "SHOP AGAIN") [ct_p].
Lemma ct_contained : ∃ x, j_posts ex_j0 !! 2 = Some x ∧ jp_trn x = 1 ∧ has_all (jp_post x) ct_p.
Proof.
  eexists. split; [vm_compute; reflexivity|]. split; [done|]. simpl. split.
  - intros t Ht _. exact Ht.
  - intros l Hl. exact Hl.
  - done.
  - by left.
  - done.
  - intros Ht. exact Ht.
Qed.
Lemma ct_mergeable : mergeable ct_p.
Proof.
  split.
  - exists (s2l "fp-a1"). split; [by exists (s2l "a1")|]. unfold has_tag. by_compute.
  - intros t Ht [s ->]. unfold has_tag, ct_p, ex_post in Ht. cbn [pi_comment tags list_to_set] in Ht.
    rewrite elem_of_union, elem_of_singleton, elem_of_empty in Ht. by destruct Ht as [?|[]].
Qed.

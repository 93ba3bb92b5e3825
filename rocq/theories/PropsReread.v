(** Writing transactions to files and reading them again (C116).  The vocabulary is
    in CommentClaims.v, PostClaims.v and RereadClaims.v. *)
From Verif Require Import MergeClaims.
From Verif Require Import Base Types SpecBase BaseProofs CommentModel MergeModel CommentClaims CommentLaws CommentTags CommentExamples MergeExamples ImportExamples
  HeaderClaims PostClaims RereadClaims Reread.
Local Open Scope nat_scope.

(** C116: the flag tags of a comment that was read, written and read again are the
    flag tags it had, and what looks like a flag tag in the value of a value tag
    whose key is blank. *)
Theorem C116_tags_exact ho s t : hash_order_ok ho →
  let c := from_opt_comment s in
  t ∈ tags (from_opt_comment (into_opt_comment ho c)) ↔
  t ∈ tags c ∨ ∃ k v, value_tags c !! k = Some v ∧ trim k = [] ∧ flag_in t v.
Proof. intros Hho. exact (reread_tags ho (from_opt_comment s) t Hho (from_opt_comment_shape s)). Qed.
Print Assumptions C116_tags_exact.
(** So merging files to which transactions were written, or merging these
    transactions, is the same: the same is handed back, the same fails, and the
    journals have the same accounts, amounts, balances and flag tags in the same
    places. *)
Theorem C116_merging_files m m' ho ho' tps : hash_order_ok ho' → filed m m' →
  (∀ tp p, tp ∈ tps → p ∈ tp_posts tp → ordinary (pi_comment p)) →
  result_alike (Forall2 same_posts) (merge ho m tps).2 (merge ho m' (reread ho' tps)).2 ∧
  result_alike (Forall2 same_posts) (build ho m) (build ho m').
Proof. exact (c116 m m' ho ho' tps). Qed.
Print Assumptions C116_merging_files.
(** Comments that were read, and comments made by merging such, are ordinary, unless
    a line is a value tag with a blank key. *)
Theorem C116_ordinary : 
  (∀ s, (∀ l k, l ∈ split_on newline s → value_line k l → trim k ≠ []) → ordinary (from_opt_comment (Some s))) ∧
  (∀ c c', ordinary c → ordinary c' → ordinary (merge_from c c')).
Proof. split; [exact read_ordinary|exact merge_ordinary]. Qed.
Print Assumptions C116_ordinary.

(** A tab followed by a colon is a value tag; its key is written as nothing, and the
    value is then read as text with a flag tag: a posting gets a fingerprint. *)
Definition tab_comment : comment := from_opt_comment (Some ([9%N] ++ s2l ": :fp-a.1:")).
Example C116_invented : tags tab_comment = ∅ ∧ value_tags tab_comment = {[ [9%N] := s2l ":fp-a.1:" ]} ∧
  tags (from_opt_comment (into_opt_comment default_order tab_comment)) = {[ s2l "fp-a.1" ]}.
Proof. split; [|split]; by_compute. Qed.
(** Two inputs for one payment, with comments that do not stay as they are when
    written: an empty value becomes text. *)
Definition rr_post (account : str) (q : Z) (text : str) : posting_internal :=
  PI (Posting account Real (Some (ex_amount q)) None None None) (from_opt_comment (Some text)).
Definition rr_s0 := [ex_tp day1 (s2l "shop")
  [rr_post bank (-500) (s2l "paid :fp-a.1: in cash" ++ [newline] ++ s2l "ref:"); rr_post unknown 500 (s2l ":fp-a.2:unknown-account:")]].
Definition rr_s1 := [ex_tp day1 (s2l "SHOP") [rr_post bank (-500) (s2l "ref: :fp-b.1:" ++ [newline] ++ s2l ":fp-a.1:"); rr_post food 500 (s2l ":fp-a.2:")];
  ex_tp day2 (s2l "cafe") [rr_post bank (-300) (s2l ":fp-b.1: key: value")]].
Lemma rr_ordinary tps : tps = rr_s0 ∨ tps = rr_s1 → ∀ tp p, tp ∈ tps → p ∈ tp_posts tp → ordinary (pi_comment p).
Proof.
  assert (∀ a q t, map_Forall (λ k _, trim k ≠ []) (value_tags (from_opt_comment (Some t))) → ordinary (pi_comment (rr_post a q t))) as H.
  { intros a q t Hk. split; [apply from_opt_comment_shape|]. intros k v. apply (Hk k v). }
  assert (∀ tps, Forall (λ tp, Forall (λ p, ordinary (pi_comment p)) (tp_posts tp)) tps → ∀ tp p, tp ∈ tps → p ∈ tp_posts tp → ordinary (pi_comment p)) as Hf.
  { intros l Hl tp p Htp Hp. rewrite Forall_forall in Hl. specialize (Hl tp Htp). rewrite Forall_forall in Hl. by apply Hl. }
  intros [->| ->]; apply Hf; unfold rr_s0, rr_s1, ex_tp; rewrite !Forall_cons; cbn [tp_posts]; rewrite !Forall_cons; rewrite !Forall_nil.
  - split_and!; try exact I; apply H; by_compute.
  - split_and!; try exact I; apply H; by_compute.
Qed.
Example C116_ex : filed (merge default_order merger_new rr_s0).1 (merge default_order merger_new (reread default_order rr_s0)).1 ∧
  (∀ tp p, tp ∈ rr_s1 → p ∈ tp_posts tp → ordinary (pi_comment p)) ∧ reread default_order rr_s0 ≠ rr_s0 ∧
  length (rok (build default_order (merge default_order (merge default_order merger_new rr_s0).1 rr_s1).1) []) = 2.
Proof.
  split; [apply filed_merge; [constructor|exact default_order_ok|apply rr_ordinary; by left]|]. split; [apply rr_ordinary; by right|].
  split; [|vm_compute; reflexivity].
  intros H%(f_equal (map (λ tp, lines ∘ pi_comment <$> tp_posts tp))). revert H. vm_compute. discriminate.
Qed.

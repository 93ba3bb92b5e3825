(** What of a posting merging looks at (C115).  The vocabulary is in PostClaims.v. *)
From Verif Require Import MergeClaims.
From Verif Require Import Base Types SpecBase BaseProofs CommentModel MergeModel CommentExamples MergeExamples ImportExamples HeaderClaims PostClaims PostLaws.
Local Open Scope nat_scope.

(** C115: merging transactions whose postings have the same accounts, amounts,
    balances and flag tags, and whose dates are the same, hands back the same ones,
    fails in the same way, and makes the same journal of accounts, amounts, balances
    and flag tags, in the same order. *)
Theorem C115_looked_at m m' ho tps tps' : made_alike m m' → Forall2 same_posts tps tps' →
  result_alike (Forall2 same_posts) (merge ho m tps).2 (merge ho m' tps').2 ∧
  result_alike (Forall2 same_posts) (build ho m) (build ho m').
Proof. exact (c115 m m' ho tps tps'). Qed.
Print Assumptions C115_looked_at.

(** Every posting marked as cleared and made virtual, with its text and value tags
    dropped; every header blanked. *)
Definition bare_post (p : posting_internal) : posting_internal :=
  let r := pi_raw p in
  PI (Posting (p_account r) UnbalancedVirtual (p_amount r) (p_balance r) (Some Cleared) None) (Comment [] (tags (pi_comment p)) ∅).
Definition bare (tp : transaction_postings) : transaction_postings :=
  let t := ti_raw (tp_trn tp) in
  TP (TI (Transaction None (t_date t) None None None [] []) comment_new) (bare_post <$> tp_posts tp).
Lemma bare_same l : Forall2 same_posts l (bare <$> l).
Proof.
  induction l as [|tp l IH]; [constructor|]. rewrite fmap_cons. apply List.Forall2_cons; [|done]. split; [reflexivity|]. cbn [bare tp_posts].
  induction (tp_posts tp) as [|p ps IH2]; [constructor|]. rewrite fmap_cons. apply List.Forall2_cons; [|done]. split_and!; reflexivity.
Qed.
Definition shown (tps : list transaction_postings) :=
  (λ tp, (t_date (ti_raw (tp_trn tp)), (λ p, (p_account (pi_raw p), p_amount (pi_raw p), p_balance (pi_raw p), tags (pi_comment p))) <$> tp_posts tp)) <$> tps.
Example C115_ex : made_alike ex_m0 (merge default_order merger_new (bare <$> ex_s0)).1 ∧
  Forall2 same_posts ex_s1 (bare <$> ex_s1) ∧ bare <$> ex_s1 ≠ ex_s1 ∧
  let m := (merge default_order ex_m0 ex_s1).1 in
  let m' := (merge default_order (merge default_order merger_new (bare <$> ex_s0)).1 (bare <$> ex_s1)).1 in
  shown (rok (build default_order m') []) = shown (rok (build default_order m) []) ∧ build default_order m' ≠ build default_order m.
Proof.
  split; [|split; [apply bare_same|split]].
  - apply (made_alike_merge merger_new merger_new default_order ex_s0); [constructor|apply bare_same].
  - intros H%(f_equal (map (λ tp, (p_status ∘ pi_raw) <$> tp_posts tp))). revert H. vm_compute. discriminate.
  - split; [vm_compute; reflexivity|]. intros H%(f_equal (λ r, map (λ tp, (p_status ∘ pi_raw) <$> tp_posts tp) (rok r []))). revert H. vm_compute. discriminate.
Qed.
(** What is looked at does make a difference: with the flag tags dropped as well the
    same input is refused. *)
Example C115_tags_matter : (merge default_order ex_m0 ex_s1).2 ≠ Err ENoFingerprint ∧
  (merge default_order ex_m0 ((λ tp, TP (tp_trn tp) ((λ p, PI (pi_raw p) comment_new) <$> tp_posts tp)) <$> ex_s1)).2 = Err ENoFingerprint.
Proof. split; [vm_compute; discriminate|vm_compute; reflexivity]. Qed.

(** Iterating over a match set (C68). *)
From Verif Require Import Base Types CommentModel MergeModel CmdModel SpecBase MergeSpec MergeClaims CmdClaims CmdFp MatchIterModel MatchIterClaims.
Local Open Scope nat_scope.

Definition left_in {A} (it : iter_inner A) : list A :=
  match it with IZero => [] | IOne v => [v] | IMany vs => vs end.
Lemma next_left {A} (it : iter_inner A) : (iter_next it).1 = head (left_in it) ∧ left_in (iter_next it).2 = tail (left_in it).
Proof. by destruct it as [|v|[|v vs]]. Qed.
Lemma hint_left {A} (it : iter_inner A) : iter_size_hint it = (length (left_in it), Some (length (left_in it))).
Proof. by destruct it. Qed.
Lemma calls_left {A} (it : iter_inner A) cs i c : cs !! i = Some c →
  iter_calls it cs !! i = Some (answer_at (left_in it) (nexts (take i cs)) c).
Proof.
  revert it i. induction cs as [|c0 cs IH]; intros it i; [done|]. destruct c0; cbn [iter_calls].
  - pose proof (next_left it) as [H1 H2]. destruct (iter_next it) as [v it']. cbn [fst snd] in *. destruct i as [|i].
    + intros [= <-]. cbn. f_equal. f_equal. rewrite H1. by destruct (left_in it).
    + intros Hc. change (iter_calls it' cs !! i = Some (answer_at (left_in it) (S (nexts (take i cs))) c)). rewrite (IH it' i Hc), H2. f_equal. unfold answer_at. destruct c; f_equal.
      * by destruct (left_in it).
      * destruct (left_in it); cbn [tail length]; f_equal; try done.
  - destruct i as [|i].
    + intros [= <-]. cbn. by rewrite hint_left, Nat.sub_0_r.
    + intros Hc. exact (IH it i Hc).
Qed.
Lemma iterator {A} `{EqDecision A} (l d : list A) cs i c : first_seen l d → cs !! i = Some c →
  iter_calls (iter_of (ms_collect l)) cs !! i = Some (answer_at d (nexts (take i cs)) c).
Proof.
  intros Hd Hc. rewrite (calls_left _ _ _ _ Hc). f_equal.
  assert (left_in (iter_of (ms_collect l)) = d) as ->; [|done].
  transitivity (ms_list (ms_collect l)); [by destruct (ms_collect l)|].
  eapply first_seen_fun; [apply c68|done].
Qed.

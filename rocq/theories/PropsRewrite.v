(** Writing and reading comments again and again (C119).  The vocabulary is in
    RewriteClaims.v. *)
From Verif Require Import MergeClaims.
From Verif Require Import Base Types SpecBase BaseProofs CommentModel MergeModel CommentClaims CommentLaws RereadClaims RewriteClaims Rewrite BlankValues.
Local Open Scope nat_scope.

(** C119: whatever the comment is, from the fifth writing on its text alternates
    between at most two texts. *)
Theorem C119_alternates ho n s : (∀ i, hash_order_ok (ho i)) → 5 ≤ n → rewritten ho (n + 2) s = rewritten ho n s.
Proof. exact (c119 ho n s). Qed.
Print Assumptions C119_alternates.
(** If its only white space are spaces, from the third writing on. *)
Theorem C119_spaces ho n s : (∀ i, hash_order_ok (ho i)) → only_spaces s → 3 ≤ n → rewritten ho (n + 2) s = rewritten ho n s.
Proof. exact (c119_spaces ho n s). Qed.
Print Assumptions C119_spaces.
(** So do the transactions of a file. *)
Theorem C119_files ho n ts : (∀ i, hash_order_ok (ho i)) → 5 ≤ n → rewritten_all ho (n + 2) ts = rewritten_all ho n ts.
Proof. exact (c119_files ho n ts). Qed.
Print Assumptions C119_files.

(** A comment that alternates for ever. *)
Example C119_two_texts : 
  rewritten (λ _, default_order) 5 (Some (s2l "k:")) = Some (s2l "k: ") ∧ rewritten (λ _, default_order) 6 (Some (s2l "k:")) = Some (s2l "k:").
Proof. split; vm_compute; reflexivity. Qed.
Example C119_never_settles n : rewritten (λ _, default_order) (n + 1) (Some (s2l "k:")) ≠ rewritten (λ _, default_order) n (Some (s2l "k:")).
Proof.
  assert (∀ m, rewritten (λ _, default_order) (m * 2) (Some (s2l "k:")) = Some (s2l "k:") ∧ rewritten (λ _, default_order) (S (m * 2)) (Some (s2l "k:")) = Some (s2l "k: ")) as H.
  { intros m. induction m as [|m [IH1 IH2]]; [split; vm_compute; reflexivity|]. cbn [Nat.mul Nat.add]. cbn [rewritten] in *. rewrite IH2. split; vm_compute; reflexivity. }
  destruct (Nat.Even_or_Odd n) as [[m ->]|[m ->]].
  - rewrite Nat.mul_comm. destruct (H m) as [H1 H2]. rewrite Nat.add_1_r, H1, H2. vm_compute. discriminate.
  - rewrite (Nat.mul_comm 2). destruct (H m) as [_ H2]. destruct (H (S m)) as [H1 _]. rewrite !Nat.add_1_r, H2. cbn [Nat.mul Nat.add] in H1. rewrite H1. vm_compute. discriminate.
Qed.
(** Neither of the bounds can be lowered. *)
Definition lost_value : option str := Some (s2l ":a: x :b: k: 5" ++ [newline] ++ s2l "k:").
Definition tab_key_value : option str := Some (s2l ":a: y" ++ [newline] ++ [9%N] ++ s2l ": x :c: k" ++ [9%N] ++ s2l ": v :d: k:").
Example C119_bounds_ex :
  rewritten (λ _, default_order) 4 lost_value ≠ rewritten (λ _, default_order) 2 lost_value ∧
  rewritten (λ _, default_order) 6 tab_key_value ≠ rewritten (λ _, default_order) 4 tab_key_value.
Proof. split; vm_compute; discriminate. Qed.
Example C119_spaces_ex : only_spaces lost_value.
Proof.
  intros t x [= <-] Hx Hw. assert (Forall (λ x, is_ws x = true → x = space ∨ x = newline) (s2l ":a: x :b: k: 5" ++ [newline] ++ s2l "k:")) as H by by_compute.
  rewrite Forall_forall in H. by apply H.
Qed.

(** C34, the rest: a value tag whose value is blank is lost and becomes text, unless
    some text of the comment, or another key, reads as the same key. *)
Theorem C34_blank_values_lost ho c k v : hash_order_ok ho → ordinary c → value_tags c !! k = Some v → trim v = [] →
  (∀ l k', l ∈ lines c → value_line k' l → trim k' ≠ trim k) →
  (∀ k' v', value_tags c !! k' = Some v' → trim k' = trim k → k' = k) →
  let c' := from_opt_comment (into_opt_comment ho c) in value_tags c' !! k = None ∧ trim k ++ [colon] ∈ lines c'.
Proof. exact (blank_lost ho c k v). Qed.
Print Assumptions C34_blank_values_lost.
Example C34_blank_ex : let c := Comment [s2l "text"] ∅ {[ s2l "k" := s2l " "; s2l "z" := s2l "1" ]} in
  let c' := from_opt_comment (into_opt_comment default_order c) in
  from_opt_comment (Some (s2l "text" ++ newline :: s2l "z: 1" ++ newline :: s2l "k:")) = Comment [s2l "text"] ∅ {[ s2l "k" := []; s2l "z" := s2l "1" ]} ∧
  value_tags c' = {[ s2l "z" := s2l "1" ]} ∧ lines c' = [s2l "text"; s2l "k:"].
Proof. cbv zeta. split_and!; by_compute. Qed.
(** With such a text the key keeps a value. *)
Example C34_blank_shadowed_ex :
  value_tags (from_opt_comment (into_opt_comment default_order (Comment [s2l "k: text"] ∅ {[ s2l "k" := [] ]}))) = {[ s2l "k" := s2l "text" ]}.
Proof. by_compute. Qed.

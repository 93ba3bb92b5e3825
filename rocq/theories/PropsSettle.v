(** C35 and C119: exactly which comments settle. *)
From Verif Require Import MergeClaims.
From Verif Require Import Base Types SpecBase BaseProofs CommentModel CommentClaims CommentExamples CmdClaims LayoutClaims ExactClaims Exact RewriteClaims Settle.
Local Open Scope nat_scope.

(** C35: the text that a comment is formatted to is left alone from then on exactly
    if it is also the text of a comment that is read back as written. *)
Theorem C35_exact ho s : hash_order_ok ho →
  let text := into_opt_comment ho (from_opt_comment s) in
  into_opt_comment ho (from_opt_comment text) = text ↔ ∃ c, read_back_as_written c ∧ into_opt_comment ho c = text.
Proof. exact (exact_fixed_points ho (into_opt_comment ho (from_opt_comment s))). Qed.
Print Assumptions C35_exact.

(** C119: the text settles at all exactly if the comment read from the fifth
    writing is read back as written, and then it has settled by then. *)
Theorem C119_settles ho s : (∀ i, hash_order_ok (ho i)) →
  (∃ n, ∀ k, n ≤ k → rewritten ho (k + 1) s = rewritten ho k s) ↔ read_back_as_written (from_opt_comment (rewritten ho 5 s)).
Proof. exact (settles_exact ho s). Qed.
Print Assumptions C119_settles.
Theorem C119_settled ho n s : (∀ i, hash_order_ok (ho i)) → 5 ≤ n →
  rewritten ho (n + 1) s = rewritten ho n s ↔ read_back_as_written (from_opt_comment (rewritten ho n s)).
Proof. exact (settles_at ho n s). Qed.
Print Assumptions C119_settled.
(** It does, from the third writing on, if at first no value and no key is blank and
    no text ends in a colon. *)
Theorem C119_solid ho n s : (∀ i, hash_order_ok (ho i)) → 3 ≤ n →
  let c := from_opt_comment s in
  (∀ k v, value_tags c !! k = Some v → trim k ≠ [] ∧ trim v ≠ []) → (∀ l, l ∈ lines c → last l ≠ Some colon) →
  rewritten ho (n + 1) s = rewritten ho n s.
Proof. exact (settles_solid ho n s). Qed.
Print Assumptions C119_solid.

(** A comment with tags, values and text between them: not settled at the first writing. *)
Definition ex_settling : option str := Some (s2l ":a: x :b: k: 5" ++ [newline] ++ s2l "b: 1").
Example C119_solid_ex : let c := from_opt_comment ex_settling in
  (∀ k v, value_tags c !! k = Some v → trim k ≠ [] ∧ trim v ≠ []) ∧ (∀ l, l ∈ lines c → last l ≠ Some colon) ∧
  lines c = [s2l "x"; s2l "k: 5"] ∧ rewritten (λ _, default_order) 2 ex_settling ≠ rewritten (λ _, default_order) 1 ex_settling.
Proof.
  cbv zeta. assert (value_tags (from_opt_comment ex_settling) = {[ s2l "b" := s2l "1" ]}) as -> by by_compute.
  assert (lines (from_opt_comment ex_settling) = [s2l "x"; s2l "k: 5"]) as -> by by_compute. refine (conj _ (conj _ (conj eq_refl _))).
  - intros k v [<- <-]%lookup_singleton_Some. split; vm_compute; discriminate.
  - intros l [->|[->|Hl%elem_of_nil]%elem_of_cons]%elem_of_cons; [vm_compute; discriminate..|done].
  - vm_compute. discriminate.
Qed.
Example C119_settles_ex : ¬ read_back_as_written (from_opt_comment (rewritten (λ _, default_order) 5 (Some (s2l "k:")))).
Proof.
  rewrite <- (settles_at (λ _, default_order) 5 _ (λ _, default_order_ok)); [|vm_compute; reflexivity || (repeat constructor)].
  vm_compute. discriminate.
Qed.
Example C35_exact_ex : into_opt_comment default_order (from_opt_comment (Some (s2l "k:"))) = Some (s2l "k: ") ∧
  ¬ (∃ c, read_back_as_written c ∧ into_opt_comment default_order c = Some (s2l "k: ")).
Proof.
  split; [by_compute|]. rewrite <- (exact_fixed_points default_order _ default_order_ok). vm_compute. discriminate.
Qed.

(** Two copies of one journal that were given fingerprints separately (C153).  The
    vocabulary is in CopiesClaims.v. *)
From Verif Require Import MergeClaims.
From Verif Require Import Base Types SpecBase BaseProofs CommentModel MergeModel MergeExamples CmdModel PartsClaims DrawnClaims CopiesClaims Copies.
From Coq Require Import Lia.
Local Open Scope nat_scope.

(** C153: generate-fingerprints on two copies of a journal without fingerprints, whose
    postings are told apart by date, amount and account.  Merging the two hands nothing
    back, and gives the journal once, sorted by date, each posting with the fingerprints of
    both; merging the second copy once more changes nothing. *)
Theorem C153_copies ho ho' gen gen' n n' k k' J J1 J2 ho1 ho2 : hash_order_ok ho → hash_order_ok ho' → hash_order_ok ho1 → hash_order_ok ho2 →
  fpgen_trns ho gen n J = (n', J1) → fpgen_trns ho' gen' k J = (k', J2) →
  unmarked J → told_apart J → separate_ids gen gen' →
  ∃ m1 m out, merge ho1 merger_new J1 = (m1, Ok []) ∧ merge ho2 m1 J2 = (m, Ok []) ∧ all_both_ids gen gen' J out ∧
    (∀ hb, hash_order_ok hb → build hb m = Ok (stable_sort (by_key tp_date) out)) ∧
    (∀ ho3, hash_order_ok ho3 → merge ho3 m J2 = (m, Ok [])).
Proof. exact (c153 ho ho' gen gen' n n' k k' J J1 J2 ho1 ho2). Qed.
Print Assumptions C153_copies.

(** Two payments on one day. *)
Definition cp_J := [ex_tp day1 (s2l "shop") [ex_post bank (-5) []; ex_post food 5 [s2l "lunch"]]; ex_tp day1 (s2l "x") [ex_post bank 7 []]].
Definition cp_gen (i : nat) : str := replicate (S i) 97%N.
Definition cp_gen' (i : nat) : str := replicate (S i) 98%N.
Definition cp_posts (J : list transaction_postings) : list (nat * nat * date * posting_internal) :=
  mjoin (imap (λ a tp, imap (λ b p, (a, b, tp_date tp, p)) (tp_posts tp)) J).
Lemma cp_told J : Forall (λ x, Forall (λ y, x.1.2 = y.1.2 → matches x.2 y.2 = true → x.1.1 = y.1.1) (cp_posts J)) (cp_posts J) → told_apart J.
Proof.
  intros H a a' b b' tp tp' p q A A' B B' D S. rewrite Forall_forall in H.
  assert (∀ a b tp p, J !! a = Some tp → tp_posts tp !! b = Some p → (a, b, tp_date tp, p) ∈ cp_posts J) as Hin.
  { clear. intros a b tp p A B. apply elem_of_list_join. exists (imap (λ b p, (a, b, tp_date tp, p)) (tp_posts tp)). split.
    - apply elem_of_lookup_imap. eauto.
    - apply elem_of_lookup_imap. exists a, tp. done. }
  specialize (H _ (Hin _ _ _ _ A B)). rewrite Forall_forall in H. specialize (H _ (Hin _ _ _ _ A' B')). cbn in H.
  assert ((a, b) = (a', b')) as E; [|by injection E]. apply H; [done|]. by apply MergeLemmas.matches_spec.
Qed.
Lemma cp_unmarked J : Forall (λ tp, tp_posts tp ≠ []) J → Forall (λ p, Forall (λ t, take 3 t ≠ s2l "fp-" ∧ take 10 t ≠ s2l "candidate-") (elements (tags (pi_comment p)))) (all_posts J) → unmarked J.
Proof.
  intros H1 H2. rewrite Forall_forall in H1. rewrite Forall_forall in H2. split; [|done]. intros p t Hp Ht. apply H2 in Hp. rewrite Forall_forall in Hp.
  destruct (Hp t) as [A B]; [by apply elem_of_elements|]. split; intros [s ->]; [by apply A|by apply B].
Qed.
Lemma cp_ids : separate_ids cp_gen cp_gen'.
Proof.
  split_and!; [intros i k E; apply (f_equal length) in E; unfold cp_gen, cp_gen' in E; rewrite !replicate_length in E; lia..|].
  intros i k. unfold cp_gen, cp_gen'. cbn [replicate]. intros [=].
Qed.
Definition cp_1 J := (fpgen_trns default_order cp_gen 0 J).2.
Definition cp_2 J := (fpgen_trns default_order cp_gen' 0 J).2.
Definition cp_m J := (merge default_order (merge default_order merger_new (cp_1 J)).1 (cp_2 J)).1.
Example C153_ex : unmarked cp_J ∧ told_apart cp_J ∧ separate_ids cp_gen cp_gen' ∧
  rmap (λ out, (λ p, elements (tags (pi_comment p))) <$> all_posts out) (build default_order (cp_m cp_J)) =
    Ok [[s2l "fp-uuidb64-a"; s2l "fp-uuidb64-b"]; [s2l "fp-uuidb64-aa"; s2l "fp-uuidb64-bb"; s2l "lunch"]; [s2l "fp-uuidb64-aaa"; s2l "fp-uuidb64-bbb"]].
Proof.
  split_and!; [apply cp_unmarked; by_compute|apply cp_told; by_compute|exact cp_ids|].
  vm_compute. reflexivity.
Qed.
(** Two payments of one amount on one day are not told apart: both are handed back. *)
Definition cp_J' := [ex_tp day1 (s2l "x") [ex_post bank 7 []]; ex_tp day1 (s2l "y") [ex_post bank 7 []]].
Theorem C153_apart_needed : unmarked cp_J' ∧ separate_ids cp_gen cp_gen' ∧
  rmap length (merge default_order (merge default_order merger_new (cp_1 cp_J')).1 (cp_2 cp_J')).2 = Ok 2.
Proof. split_and!; [apply cp_unmarked; by_compute|exact cp_ids|vm_compute; reflexivity]. Qed.
Print Assumptions C153_apart_needed.

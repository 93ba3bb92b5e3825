(** The ids that generate-fingerprints draws make no difference (C152).  The vocabulary
    is in DrawnClaims.v. *)
From Verif Require Import MergeClaims.
From Verif Require Import Base Types SpecBase BaseProofs CommentModel MergeModel MergeExamples CmdModel RetagClaims ResolveClaims PartsClaims DrawnClaims Drawn.
Local Open Scope nat_scope.

(** C152: generate-fingerprints on the same journal draws two different lots of ids, all
    different and none yet in use.  The journals it makes are the same but for the ids.
    And whatever is merged before and after, every merge fails, or succeeds and hands back
    the same transactions, alike for the two, and the journals built are the same but for
    the ids. *)
Theorem C152_ids ho ho' gen gen' n n' J J1 : hash_order_ok ho → hash_order_ok ho' → fpgen_trns ho gen n J = (n', J1) →
  different_ids gen n n' → different_ids gen' n n' → free_of gen n n' J → free_of gen' n n' J →
  ∃ f, exchanges gen gen' n n' f ∧ fpgen_trns ho' gen' n J = (n', retag f <$> J1) ∧
  ∀ h h' hb hb', hash_order_ok hb → hash_order_ok hb' →
    Forall2 (λ r r', hash_order_ok r.1 ∧ hash_order_ok r'.1 ∧
      ((r.2 = J1 ∧ r'.2 = retag f <$> J1) ∨ (r'.2 = r.2 ∧ free_of gen n n' r.2 ∧ free_of gen' n n' r.2))) h h' →
    Forall2 (alike_but f) (outcomes merger_new h) (outcomes merger_new h') ∧
    build hb' (after merger_new h') = rmap (λ out : list transaction_postings, retag f <$> out) (build hb (after merger_new h)).
Proof. exact (c152 ho ho' gen gen' n n' J J1). Qed.
Print Assumptions C152_ids.

(** Two postings without a fingerprint, and one with; a statement with a posting that is
    in the journal and another. *)
Definition dr_J := [ex_tp day1 (s2l "shop") [ex_post bank (-5) []; ex_post food 5 [s2l "lunch"]]; ex_tp day1 (s2l "x") [ex_post bank 7 [s2l "fp-q"]]].
Definition dr_gen (i : nat) : str := replicate (S i) 97%N.
Definition dr_gen' (i : nat) : str := replicate (5 - i) 98%N.
Definition dr_same (i : nat) : str := s2l "b".
Definition dr_S := [ex_tp day1 (s2l "x") [ex_post bank 7 [s2l "fp-q"; s2l "fp-r"]]; ex_tp day1 (s2l "y") [ex_post food 8 [s2l "fp-s"]]].
Definition dr_J1 := (fpgen_trns default_order dr_gen 0 dr_J).2.
Lemma dr_free gen tps : (∀ i, i = 0 ∨ i = 1 → Forall (λ p, id_fingerprint (gen i) ∉ tags (pi_comment p)) (all_posts tps)) → free_of gen 0 2 tps.
Proof.
  intros H p t Hp Ht (i & Hi & ->). specialize (H i ltac:(lia)). rewrite Forall_forall in H. by apply (H p).
Qed.
Example C152_ex : fpgen_trns default_order dr_gen 0 dr_J = (2, dr_J1) ∧ different_ids dr_gen 0 2 ∧ different_ids dr_gen' 0 2 ∧
  free_of dr_gen 0 2 dr_J ∧ free_of dr_gen' 0 2 dr_J ∧ free_of dr_gen 0 2 dr_S ∧ free_of dr_gen' 0 2 dr_S ∧
  (λ p, elements (tags (pi_comment p))) <$> all_posts dr_J1 = [[s2l "fp-uuidb64-a"]; [s2l "fp-uuidb64-aa"; s2l "lunch"]; [s2l "fp-q"]] ∧
  outcomes merger_new [(default_order, dr_J1); (default_order, dr_S)] = [Ok []; Ok []].
Proof.
  split_and!.
  1: by_compute.
  1, 2: intros i k Hi Hk E; apply (f_equal length) in E; unfold dr_gen, dr_gen' in E; rewrite !replicate_length in E; lia.
  1, 2, 3, 4: apply dr_free; intros i [->| ->]; by_compute.
  - by_compute.
  - vm_compute. reflexivity.
Qed.
(** If an id is drawn twice, the journal cannot be merged any more. *)
Theorem C152_different_needed : free_of dr_same 0 2 dr_J ∧
  outcomes merger_new [(default_order, dr_J1)] = [Ok []] ∧
  outcomes merger_new [(default_order, (fpgen_trns default_order dr_same 0 dr_J).2)] = [Err EDupFingerprint].
Proof. split_and!; [apply dr_free; intros i [->| ->]; by_compute|vm_compute; reflexivity|vm_compute; reflexivity]. Qed.
Print Assumptions C152_different_needed.

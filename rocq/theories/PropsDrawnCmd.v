(** The ids that generate-fingerprints draws make no difference, for the commands (C152).
    The vocabulary is in DrawnClaims.v. *)
From stdpp Require Import gmap list.
From Verif Require Import MergeClaims.
From Verif Require Import Base Types SpecBase BaseProofs CommentModel CommentClaims MergeModel MergeExamples CmdModel CmdClaims CmdExamples CmdIdem
  HandExamples HeaderClaims RetagClaims DrawnClaims Drawn DrawnCmd PropsDrawn.
From Coq Require Import Lia.
Local Open Scope nat_scope.

(** C152, for the commands: generate-fingerprints on the journal [hand], with two lots of
    ids; then the merge command on the journal and other files.  It succeeds after both or
    after neither, and the files it writes are the same but for the ids. *)
Theorem C152_commands E ho ho' gen gen' n hand others rest wd wd0 es es' text l ho2 ho2' um um' output output' es2 es2' r r' :
  hash_order_ok ho → hash_order_ok ho' → hash_order_ok ho2 → hash_order_ok ho2' →
  (* the ids are different, can be written in a comment, and are not in use *)
  (∀ g, g = gen ∨ g = gen' →
     (∀ i k, g i = g k → i = k) ∧ (∀ i c, c ∈ g i → c ≠ colon ∧ c ≠ CommentClaims.space ∧ c ≠ newline) ∧
     ∀ i p, p ∈ all_posts (transaction_postings_of <$> ledger_trns l) ++ all_posts (mjoin rest) → ¬ has_tag p (id_fingerprint (g i))) →
  w_files wd !! hand = Some text → e_parse E text = Some l →
  (∀ tp, tp ∈ transaction_postings_of <$> ledger_trns l → comments_writable tp ∧ source_tag tp = None) →
  journals E wd (Path <$> others) rest wd0 → hand ∉ others → f_read E (Path hand) = false →
  (* what the first command writes is read back *)
  (∀ tps', fingerprints_added gen (transaction_postings_of <$> ledger_trns l) tps' →
     w_files (steps wd es) !! hand = Some (e_print E (into_ledger ho tps')) →
     e_parse E (e_print E (into_ledger ho tps')) = Some (into_ledger ho tps')) →
  (∀ tps', fingerprints_added gen' (transaction_postings_of <$> ledger_trns l) tps' →
     w_files (steps wd es') !! hand = Some (e_print E (into_ledger ho' tps')) →
     e_parse E (e_print E (into_ledger ho' tps')) = Some (into_ledger ho' tps')) →
  fpgen_cmd E ho gen n [Path hand] wd = (es, Ok tt) → fpgen_cmd E ho' gen' n [Path hand] wd = (es', Ok tt) →
  (is_Some um ↔ is_Some um') → um ≠ Some Stdio → um' ≠ Some Stdio → um ≠ Some output → um' ≠ Some output' →
  (∀ f, um = Some f → writable E f) → (∀ f, um' = Some f → writable E f) → writable E output → writable E output' →
  let w := steps wd es in let w' := steps wd es' in
  merge_cmd E ho2 (Path <$> hand :: others) um output w = (es2, r) → merge_cmd E ho2' (Path <$> hand :: others) um' output' w' = (es2', r') →
  (r = Ok tt ↔ r' = Ok tt) ∧
  ∃ n' f, exchanges gen gen' n n' f ∧
  (r = Ok tt → ∃ out un un2 back back2,
     holds w (steps w es2) output (e_print E (into_ledger ho2 out)) ∧
     holds w' (steps w' es2') output' (e_print E (into_ledger ho2 (retag f <$> out))) ∧
     (* what is handed back has the name of the file it is from *)
     Forall2 (λ u u', equal_but_candidates (retag f u) u') un un2 ∧ Forall2 unsourced back un ∧ Forall2 unsourced back2 un2 ∧
     (un ≠ [] → ∃ g g2, um = Some g ∧ um' = Some g2 ∧
        holds w (steps w es2) g (e_print E (into_ledger ho2 back)) ∧
        holds w' (steps w' es2') g2 (e_print E (into_ledger ho2 back2)))).
Proof. exact (c152_command E ho ho' gen gen' n hand others rest wd wd0 es es' text l ho2 ho2' um um' output output' es2 es2' r r'). Qed.
Print Assumptions C152_commands.

(** The journal and the statement of PropsDrawn.v, as files. *)
Definition dc_gen' (i : nat) : str := replicate (S i) 98%N.
Definition dc_l : ledger := into_ledger default_order dr_J.
Definition dc_l1 : ledger := into_ledger default_order dr_J1.
Definition dc_l2 : ledger := into_ledger default_order (fpgen_trns default_order dc_gen' 0 dr_J).2.
Definition dc_lS : ledger := into_ledger default_order dr_S.
Definition dc_E : env := ex_env [(s2l "H", dc_l); (s2l "F1", dc_l1); (s2l "F2", dc_l2); (s2l "B", dc_lS)].
Definition dc_w : world := World {[ s2l "hand" := s2l "H"; s2l "bank" := s2l "B" ]} ∅ [] [].
Definition dc_run (gen : nat → str) := fpgen_cmd dc_E default_order gen 0 [Path (s2l "hand")] dc_w.
Definition dc_J : list transaction_postings := transaction_postings_of <$> ledger_trns dc_l.
Definition dc_S : list transaction_postings := transaction_postings_of <$> ledger_trns dc_lS.
Lemma dc_free (c : N) : c = 97%N ∨ c = 98%N → ∀ i p, p ∈ all_posts dc_J ++ all_posts (mjoin [dc_S]) → ¬ has_tag p (id_fingerprint (replicate (S i) c)).
Proof.
  assert (Forall (λ p, Forall (λ t, take 11 t ≠ s2l "fp-uuidb64-") (elements (tags (pi_comment p)))) (all_posts dc_J ++ all_posts (mjoin [dc_S]))) as F by by_compute.
  rewrite Forall_forall in F. intros Hc i p Hp Ht. apply F in Hp. rewrite Forall_forall in Hp. apply (Hp (id_fingerprint (replicate (S i) c))); [|done].
  by apply elem_of_elements.
Qed.
Lemma dc_written gen t L' : w_files (steps dc_w (dc_run gen).1) !! s2l "hand" = Some t →
  (filter (λ e, e = t) ([s2l "H"; s2l "F1"; s2l "F2"; s2l "B"] ++ [s2l "?"]), e_parse dc_E t) = ([t], Some L') → e_print dc_E L' = t →
  ∀ tps', fingerprints_added gen dc_J tps' →
  w_files (steps dc_w (dc_run gen).1) !! s2l "hand" = Some (e_print dc_E (into_ledger default_order tps')) →
  e_parse dc_E (e_print dc_E (into_ledger default_order tps')) = Some (into_ledger default_order tps').
Proof.
  intros E H E2 tps' _ H1. rewrite E in H1. apply (inj Some) in H1. generalize dependent (into_ledger default_order tps'). intros L H1.
  assert (L = L') as ->. { apply (ex_print_inv [(s2l "H", dc_l); (s2l "F1", dc_l1); (s2l "F2", dc_l2); (s2l "B", dc_lS)] t); [exact H|symmetry; exact H1]. }
  rewrite E2. by injection H.
Qed.
Example C152_commands_ex :
  (∀ g, g = dr_gen ∨ g = dc_gen' →
     (∀ i k, g i = g k → i = k) ∧ (∀ i c, c ∈ g i → c ≠ colon ∧ c ≠ CommentClaims.space ∧ c ≠ newline) ∧
     ∀ i p, p ∈ all_posts dc_J ++ all_posts (mjoin [dc_S]) → ¬ has_tag p (id_fingerprint (g i))) ∧
  (∀ tp, tp ∈ dc_J → comments_writable tp ∧ source_tag tp = None) ∧
  journals dc_E dc_w (Path <$> [s2l "bank"]) [dc_S] dc_w ∧
  (∀ g, g = dr_gen ∨ g = dc_gen' → ∀ tps', fingerprints_added g dc_J tps' →
     w_files (steps dc_w (dc_run g).1) !! s2l "hand" = Some (e_print dc_E (into_ledger default_order tps')) →
     e_parse dc_E (e_print dc_E (into_ledger default_order tps')) = Some (into_ledger default_order tps')) ∧
  (λ g, ((dc_run g).2, w_files (steps dc_w (dc_run g).1) !! s2l "hand",
     (merge_cmd dc_E default_order (Path <$> [s2l "hand"; s2l "bank"]) None (Path (s2l "out")) (steps dc_w (dc_run g).1)).2)) <$> [dr_gen; dc_gen'] =
    [(Ok tt, Some (s2l "F1"), Ok tt); (Ok tt, Some (s2l "F2"), Ok tt)].
Proof.
  split_and!.
  - assert (∀ c : N, c = 97%N ∨ c = 98%N → (∀ i k, replicate (S i) c = replicate (S k) c → i = k) ∧
      (∀ i x, x ∈ replicate (S i) c → x ≠ colon ∧ x ≠ CommentClaims.space ∧ x ≠ newline)) as H.
    { intros c Hc. split.
      - intros i k E. apply (f_equal length) in E. rewrite !replicate_length in E. lia.
      - intros i x [-> _]%elem_of_replicate. destruct Hc as [->| ->]; by_compute. }
    intros g [->| ->].
    + destruct (H 97%N) as [H1 H2]; [by left|]. split_and!; [exact H1|exact H2|]. apply dc_free. by left.
    + destruct (H 98%N) as [H1 H2]; [by right|]. split_and!; [exact H1|exact H2|]. apply dc_free. by right.
  - intros tp Htp. split; [revert tp Htp; apply writable_compute; by_compute|].
    assert (Forall (λ tp, source_tag tp = None) dc_J) as F by by_compute. rewrite Forall_forall in F. by apply F.
  - eapply journals_cons; [|..|constructor].
    + eapply reads_path; [done|vm_compute; reflexivity|vm_compute; reflexivity].
    + unfold supported. by_compute.
    + apply Forall_forall. by_compute.
  - intros g [->| ->].
    + apply (dc_written dr_gen (s2l "F1") dc_l1); vm_compute; reflexivity.
    + apply (dc_written dc_gen' (s2l "F2") dc_l2); vm_compute; reflexivity.
  - vm_compute. reflexivity.
Qed.

(** Journals with older fingerprints: the merge command (C151). *)
From stdpp Require Import gmap list.
From Verif Require Import MergeClaims.
From Verif Require Import Base Types SpecBase BaseProofs CommentModel MergeModel MergeSpec CmdModel CmdClaims HeaderClaims CommentExamples MergeExamples
  CmdExamples EditClaims WorkflowExamples ResolveClaims FewerClaims Fewer Upgrade UpgradeCmd.
Local Open Scope nat_scope.

(** C151: the journal is in one file and the set that it knows in another.  The merge
    command succeeds; the journal it writes has the transactions and postings of the first,
    at most refined.  When that is merged later, with a set that has other ones of the
    fingerprints only, the same journal is written again. *)
Theorem C151_command E J s f g w w' ho um output : hash_order_ok ho → journal_ok J → journal_ok s → known_in J s →
  journals E w [f; g] [J; s] w' → (∀ u, um = Some u → writable E u) → writable E output →
  ∃ es out, merge_cmd E ho [f; g] um output w = (es, Ok tt) ∧ Forall2 trn_refines (stable_sort (by_key tp_date) J) out ∧
    holds w (steps w es) output (e_print E (into_ledger ho out)) ∧ (∀ p, Path p ≠ output → same_file w (steps w es) p) ∧
    (* later, perhaps elsewhere *)
    ∀ E2 s' f2 g2 v v' ho2 um2 output2, hash_order_ok ho2 → Forall2 says_no_more s s' → (∀ p, p ∈ all_posts s' → mergeable p) →
      journals E2 v [f2; g2] [out; s'] v' → (∀ u, um2 = Some u → writable E2 u) → writable E2 output2 →
      ∃ es2, merge_cmd E2 ho2 [f2; g2] um2 output2 v = (es2, Ok tt) ∧
        holds v (steps v es2) output2 (e_print E2 (into_ledger ho2 out)) ∧ ∀ p, Path p ≠ output2 → same_file v (steps v es2) p.
Proof. exact (upgrade_files E J s f g w w' ho um output). Qed.
Print Assumptions C151_command.

(** A payment in a journal with old fingerprints, edited; reported with both, and later with
    new ones. *)
Definition uc_J : list transaction_postings :=
  [ex_tp day2 (s2l "coffee") [ex_post bank (-250) [s2l "fp-old1"]; ex_post food 250 [s2l "fp-old2"; s2l "nice"]]].
Definition uc_s : list transaction_postings :=
  [ex_tp day1 (s2l "SHOP") [ex_post bank (-251) [s2l "fp-old1"; s2l "fp-new1"]; ex_post unknown 251 [s2l "fp-old2"; s2l "fp-new2"; s2l "unknown-account"]]].
Definition uc_s' : list transaction_postings :=
  [ex_tp day1 (s2l "SHOP") [ex_post bank (-251) [s2l "fp-new1"]; ex_post unknown 251 [s2l "fp-new2"; s2l "unknown-account"]]].
Definition uc_out : list transaction_postings :=
  [ex_tp day2 (s2l "coffee") [ex_post bank (-250) [s2l "fp-old1"; s2l "fp-new1"]; ex_post food 250 [s2l "fp-old2"; s2l "fp-new2"; s2l "nice"]]].
Definition uc_ledger (J : list transaction_postings) : ledger := into_ledger default_order J.
Definition uc_E : env := ex_env [(s2l "J", uc_ledger uc_J); (s2l "S", uc_ledger uc_s); (s2l "T", uc_ledger uc_s'); (s2l "OUT", uc_ledger uc_out)].
Definition uc_w : world := World {[ s2l "j" := s2l "J"; s2l "s" := s2l "S"; s2l "t" := s2l "T" ]} ∅ [] [].
Definition uc_run (w : world) (s : str) := merge_cmd uc_E default_order [Path (s2l "j"); Path s] None (Path (s2l "j")) w.
Definition uc_w1 : world := steps uc_w (uc_run uc_w (s2l "s")).1.
Lemma uc_fewer : fewer_fingerprints uc_s uc_J.
Proof.
  assert (∀ p q, bool_decide (fps_of q ≠ []) && forallb (λ f, bool_decide (f ∈ fps_of p)) (fps_of q) = true →
    (∃ f, has_fp q f) ∧ ∀ f, has_fp q f → has_fp p f) as H.
  { intros p q [H1%bool_decide_eq_true H2]%andb_true_iff. rewrite forallb_forall in H2. split.
    - destruct (fps_of q) as [|f l] eqn:E; [done|]. exists f. apply fps_of_spec. rewrite E. left.
    - intros f Hf%fps_of_spec. apply fps_of_spec. apply elem_of_list_In, H2, bool_decide_eq_true in Hf. done. }
  constructor; [|constructor]. cbn [tp_posts ex_tp]. constructor; [|constructor; [|constructor]]; apply H; vm_compute; reflexivity.
Qed.
Lemma uc_journals : journals uc_E uc_w [Path (s2l "j"); Path (s2l "s")] [uc_J; uc_s] uc_w.
Proof.
  assert (uc_J = transaction_postings_of <$> ledger_trns (uc_ledger uc_J)) as E by by_compute.
  assert (uc_s = transaction_postings_of <$> ledger_trns (uc_ledger uc_s)) as E1 by by_compute.
  rewrite E, E1. eapply journals_cons; [| | |eapply journals_cons; [| | |constructor]].
  1,4: eapply reads_path; [done|vm_compute; reflexivity|vm_compute; reflexivity].
  1,3: unfold supported; by_compute.
  all: apply Forall_forall; by_compute.
Qed.
Example C151_command_ex : journal_ok uc_J ∧ journal_ok uc_s ∧ known_in uc_J uc_s ∧
  journals uc_E uc_w [Path (s2l "j"); Path (s2l "s")] [uc_J; uc_s] uc_w ∧
  Forall2 says_no_more uc_s uc_s' ∧ (∀ p, p ∈ all_posts uc_s' → mergeable p).
Proof.
  split; [apply journal_check; by_compute|]. split; [apply journal_check; by_compute|].
  split; [apply fewer_known; [apply distinct_check; by_compute|exact uc_fewer]|]. split; [exact uc_journals|]. split.
  - constructor; [|constructor]. unfold says_no_more. cbn [tp_posts ex_tp]. constructor; [|constructor; [|constructor]].
    all: split; [|done|done|by left|done|].
    all: unfold unknown_account, has_tag; cbn [pi_comment tags ex_post].
    all: try (intros t; rewrite !elem_of_list_to_set; intros Ht _; revert t Ht; apply Forall_forall; by_compute).
    all: rewrite !elem_of_list_to_set; by_compute.
  - assert (journal_ok uc_s') as H by (apply journal_check; by_compute). apply H.
Qed.
Example C151_command_runs : (uc_run uc_w (s2l "s")).2 = Ok tt ∧ w_files uc_w1 !! s2l "j" = Some (s2l "OUT") ∧
  (uc_run uc_w1 (s2l "t")).2 = Ok tt ∧ w_files (steps uc_w1 (uc_run uc_w1 (s2l "t")).1) !! s2l "j" = Some (s2l "OUT").
Proof. split_and!; vm_compute; reflexivity. Qed.

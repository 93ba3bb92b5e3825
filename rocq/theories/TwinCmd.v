(** Files of two sources, merged by the command (C112). *)
From stdpp Require Import gmap list.
From Verif Require Import Base Types SpecBase BaseProofs CommentModel MergeModel MergeSpec MergeClaims CmdModel CmdClaims CommentExamples MergeExamples CmdExamples HeaderClaims CmdPlain
  PiecesClaims TwinClaims Twin TwinExamples.
Local Open Scope nat_scope.

Lemma two_files E wl extra gs f fs w w' ho um output :
  two_sources wl extra → extra_apart wl extra → mjoin gs ≡ₚ second_source wl extra → hash_order_ok ho →
  journals E w (f :: fs) (first_source wl :: gs) w' → (∀ g, um = Some g → writable E g) → writable E output →
  ∃ es out, merge_cmd E ho (f :: fs) um output w = (es, Ok tt) ∧
    same_up_to_order (stable_sort (by_key tp_date) ((joined <$> wl) ++ extra)) out ∧
    holds w (steps w es) output (e_print E (into_ledger ho out)) ∧ ∀ p, Path p ≠ output → same_file w (steps w es) p.
Proof.
  intros Hts Hap Hp Hho Hj Hum Hout. destruct (two_sources_pieces wl extra gs ho ho Hts Hap Hp Hho Hho) as (m1 & m & H1 & H2 & H3).
  assert (merges ho merger_new (first_source wl :: gs) [] m) as Hm.
  { change (@nil transaction_postings) with (@nil transaction_postings ++ []). by econstructor. }
  destruct (c99_journals E ho _ um output w _ w' [] m Hho Hj Hm (or_introl eq_refl) Hum Hout) as (es & un' & out & Hes & Hb & _ & G1 & _ & G3).
  exists es, out. split; [done|]. split; [by eapply H3|]. split; [apply G1; auto|]. intros p Hpo. by apply G3.
Qed.

Definition tw_l1 : ledger := into_ledger default_order (first_source tw_w).
Definition tw_lb1 : ledger := into_ledger default_order [tw_b1].
Definition tw_lb2 : ledger := into_ledger default_order [tw_b2].
Definition tw_E : env := ex_env [(s2l "A", tw_l1); (s2l "B1", tw_lb1); (s2l "B2", tw_lb2);
  (s2l "OUT", into_ledger default_order (stable_sort (by_key tp_date) ((joined <$> tw_w) ++ [tw_b2])))].
Definition tw_world : world := World {[ s2l "a" := s2l "A"; s2l "b1" := s2l "B1"; s2l "b2" := s2l "B2" ]} ∅ [] [].
Definition tw_files : list filespec := [Path (s2l "a"); Path (s2l "b2"); Path (s2l "b1")].
Lemma tw_journals : journals tw_E tw_world tw_files [first_source tw_w; [tw_b2]; [tw_b1]] tw_world.
Proof.
  assert (first_source tw_w = transaction_postings_of <$> ledger_trns tw_l1) as E by by_compute.
  assert ([tw_b2] = transaction_postings_of <$> ledger_trns tw_lb2) as E2 by by_compute.
  assert ([tw_b1] = transaction_postings_of <$> ledger_trns tw_lb1) as E1 by by_compute.
  rewrite E, E1, E2. unfold tw_files.
  eapply journals_cons; [| | |eapply journals_cons; [| | |eapply journals_cons; [| | |constructor]]].
  1,4,7: eapply reads_path; [done|vm_compute; reflexivity|vm_compute; reflexivity].
  1,3,5: unfold supported; by_compute.
  all: apply Forall_forall; by_compute.
Qed.
Definition tw_run := merge_cmd tw_E default_order tw_files None (Path (s2l "out")) tw_world.
Lemma tw_run_ok : (tw_run.2, w_files (steps tw_world tw_run.1) !! s2l "out") = (Ok tt, Some (s2l "OUT")).
Proof. vm_compute. reflexivity. Qed.

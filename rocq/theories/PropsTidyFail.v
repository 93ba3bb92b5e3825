(** C154 when fmt ends with an error.  The vocabulary is in TidyClaims.v. *)
From Verif Require Import MergeClaims.
From stdpp Require Import gmap list.
From Verif Require Import Base Types CommentModel MergeModel CmdModel SpecBase BaseProofs CmdClaims CmdProofs CommentExamples MergeExamples CmdExamples
  RulesModel RulesExamples AgainCmd TidyClaims Tidy TidyFail PropsTidy.
Local Open Scope nat_scope.

(** C154, however fmt ends: if it succeeds, or if it fails because a journal cannot be
    opened, read or parsed, later commands do what they would have done without it.  The
    same journal may be given to fmt more than once. *)
Theorem C154_whatever E X F js w es r cs : fmt_cmd E (Path <$> js) w = (es, r) →
  (* no write of a journal breaks off half way *)
  r = Ok tt ∨ (∀ p, p ∈ js → f_write E (Path p) = None) →
  (* what fmt writes is read back *)
  (∀ p text l, p ∈ js → w_files w !! p = Some text → e_parse E text = Some l → e_parse E (e_print E l) = Some l) →
  run_commands E X F (steps w es) cs = run_commands E X F w cs.
Proof. exact (c154_whatever E X F js w es r cs). Qed.
Print Assumptions C154_whatever.

(** The first journal is rewritten, the second does not parse, the third is not reached. *)
Definition tf_js : list str := [s2l "a"; s2l "out"; s2l "b"].
Definition tf_run := fmt_cmd td_E (Path <$> tf_js) td_w.
Example C154_whatever_ex :
  tf_run.2 ≠ Ok tt ∧ w_files (steps td_w tf_run.1) !! s2l "a" = Some (s2l "J1") ∧
  run_commands td_E rx_X ag_F (steps td_w tf_run.1) td_cs = run_commands td_E rx_X ag_F td_w td_cs.
Proof.
  split; [vm_compute; discriminate|]. split; [by_compute|].
  apply (C154_whatever td_E rx_X ag_F tf_js td_w tf_run.1 tf_run.2); [apply surjective_pairing|by right|].
  intros p text l Hp Ht. assert (text = s2l "SLOPPY" ∨ text = s2l "OLD" ∨ text = s2l "J2") as [->|[->| ->]].
  { apply elem_of_cons in Hp as [->|[->|[->|Hp%elem_of_nil]%elem_of_cons]%elem_of_cons]; [left|right; left|right; right|done]; revert Ht; vm_compute; congruence. }
  - intros Hl. assert (l = ex_l1) as ->. { symmetry in Hl. apply (inj Some). rewrite Hl. by_compute. } by_compute.
  - intros Hl. exfalso. revert Hl. vm_compute. discriminate.
  - intros Hl. assert (l = ex_l2) as ->. { symmetry in Hl. apply (inj Some). rewrite Hl. by_compute. } by_compute.
Qed.

(** It is needed that no write breaks off: a full disk leaves a journal cut short. *)
Definition tf_full : env := Env (ex_parse ex_c0) (ex_print ex_c0) (λ p, p) (λ _, None) (λ _, false) (λ _, false) (λ _, Some 1) (λ _, false).
Theorem C154_write_needed : ∃ E js w es r cs, NoDup js ∧ fmt_cmd E (Path <$> js) w = (es, r) ∧
  (∀ p text l, p ∈ js → w_files w !! p = Some text → e_parse E text = Some l → e_parse E (e_print E l) = Some l) ∧
  ∀ X F, run_commands E X F (steps w es) cs ≠ run_commands E X F w cs.
Proof.
  exists tf_full, [s2l "a"], ex_w, (fmt_cmd tf_full [Path (s2l "a")] ex_w).1, (fmt_cmd tf_full [Path (s2l "a")] ex_w).2, [JFmt [Path (s2l "a")]].
  split; [by_compute|]. split; [apply surjective_pairing|]. split.
  - intros p text l Hp Ht Hl. apply elem_of_list_singleton in Hp as ->. assert (text = s2l "J1") as -> by (revert Ht; vm_compute; congruence).
    assert (l = ex_l1) as ->. { symmetry in Hl. apply (inj Some). rewrite Hl. by_compute. } by_compute.
  - intros X F H. apply (f_equal (fmap snd)) in H. revert H. vm_compute. discriminate.
Qed.
Print Assumptions C154_write_needed.

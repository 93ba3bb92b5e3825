(** C154: running fmt before other commands.  The vocabulary is in TidyClaims.v. *)
From Verif Require Import MergeClaims.
From stdpp Require Import gmap list.
From Verif Require Import Base Types CommentModel MergeModel CmdModel SpecBase BaseProofs CmdClaims CmdProofs CommentExamples MergeExamples CmdExamples
  RulesModel RulesExamples AgainCmd TidyClaims Tidy.
Local Open Scope nat_scope.

(** C154 *)
(** Once fmt has rewritten some journals, and what it wrote is read back, any commands run
    one after the other write and create the same, in the same order, and end in the same
    way as they would have without fmt. *)
Theorem C154_tidied E X F js w es cs : NoDup js → fmt_cmd E (Path <$> js) w = (es, Ok tt) →
  (* what fmt writes is read back *)
  (∀ p text l, p ∈ js → w_files w !! p = Some text → e_parse E text = Some l → e_parse E (e_print E l) = Some l) →
  run_commands E X F (steps w es) cs = run_commands E X F w cs.
Proof. exact (c154 E X F js w es cs). Qed.
Print Assumptions C154_tidied.

(** Two journals, the first of them not laid out as fmt does: "a" has a text that parses
    as the journal of the text "J1". *)
Definition td_E : env := ex_env (ex_c1 ++ [(s2l "SLOPPY", ex_l1)]).
Definition td_js : list str := [s2l "a"; s2l "b"].
Definition td_w : world := World {[ s2l "a" := s2l "SLOPPY"; s2l "b" := s2l "J2"; s2l "out" := s2l "OLD" ]} ∅ [] [].
Definition td_run := fmt_cmd td_E (Path <$> td_js) td_w.
Definition td_cs : list journal_command :=
  [JMerge default_order ex_inputs ex_um (Path (s2l "out")); JRules default_order 7 (s2l "/r/main") (Path (s2l "a")) (Path (s2l "ruled"));
   JMerge default_order [Path (s2l "missing")] None (Path (s2l "out"))].
Example C154_ex :
  (w_files (steps td_w td_run.1) !! s2l "a", w_files td_w !! s2l "a") = (Some (s2l "J1"), Some (s2l "SLOPPY")) ∧
  run_commands td_E rx_X ag_F (steps td_w td_run.1) td_cs = run_commands td_E rx_X ag_F td_w td_cs ∧
  (run_commands td_E rx_X ag_F td_w td_cs).*2 = [Ok (Some tt); Ok (Some tt); Err EIo].
Proof.
  split; [by_compute|]. split; [|by_compute]. apply (C154_tidied td_E rx_X ag_F td_js); [by_compute| |].
  - rewrite (surjective_pairing td_run) at 1. apply (f_equal (pair _)). by_compute.
  - intros p text l Hp Ht. assert (text = s2l "SLOPPY" ∨ text = s2l "J2") as [->| ->].
    { apply elem_of_cons in Hp as [->|[->|Hp%elem_of_nil]%elem_of_cons]; [left|right|done]; revert Ht; vm_compute; congruence. }
    + intros Hl. assert (l = ex_l1) as ->. { symmetry in Hl. apply (inj Some). rewrite Hl. by_compute. } by_compute.
    + intros Hl. assert (l = ex_l2) as ->. { symmetry in Hl. apply (inj Some). rewrite Hl. by_compute. } by_compute.
Qed.

(** It is needed that what fmt writes is read back. *)
Definition td_bad : env := Env (ex_parse ex_c0) (λ _, s2l "?") (λ p, p) (λ _, None) (λ _, false) (λ _, false) (λ _, None) (λ _, false).
Theorem C154_back_needed : ∃ E js w es cs, NoDup js ∧ fmt_cmd E (Path <$> js) w = (es, Ok tt) ∧
  ∀ X F, run_commands E X F (steps w es) cs ≠ run_commands E X F w cs.
Proof.
  exists td_bad, [s2l "a"], ex_w, (fmt_cmd td_bad [Path (s2l "a")] ex_w).1, [JFmt [Path (s2l "a")]]. split; [by_compute|].
  split; [rewrite (surjective_pairing (fmt_cmd _ _ _)) at 1; apply (f_equal (pair _)); by_compute|].
  intros X F H. apply (f_equal (fmap snd)) in H. revert H. vm_compute. discriminate.
Qed.
Print Assumptions C154_back_needed.

(** The same for journals laid out differently by hand: where each file is missing in both
    worlds, or has texts that parse alike, all commands do the same. *)
Theorem C154_layout E X F w w' cs : w_stdin w = w_stdin w' →
  (∀ p, (w_files w !! p = None ∧ w_files w' !! p = None) ∨
        ∃ t t', w_files w !! p = Some t ∧ w_files w' !! p = Some t' ∧ e_parse E t = e_parse E t') →
  run_commands E X F w cs = run_commands E X F w' cs.
Proof. exact (c154_layout E X F w w' cs). Qed.
Print Assumptions C154_layout.
Definition td_w' : world := World {[ s2l "a" := s2l "J1"; s2l "b" := s2l "J2"; s2l "out" := s2l "?" ]} ∅ [] [].
Example C154_layout_ex :
  run_commands td_E rx_X ag_F td_w td_cs = run_commands td_E rx_X ag_F td_w' td_cs ∧ w_files td_w ≠ w_files td_w'.
Proof.
  split; [|intros H; apply (f_equal (lookup (s2l "a"))) in H; revert H; vm_compute; discriminate].
  apply C154_layout; [done|]. intros p. unfold td_w, td_w'. cbn [w_files].
  destruct (decide (s2l "a" = p)) as [<-|Ha]; [right; exists (s2l "SLOPPY"), (s2l "J1"); split_and!; by_compute|].
  destruct (decide (s2l "b" = p)) as [<-|Hb]; [right; exists (s2l "J2"), (s2l "J2"); split_and!; by_compute|].
  destruct (decide (s2l "out" = p)) as [<-|Ho]; [right; exists (s2l "OLD"), (s2l "?"); split_and!; by_compute|].
  left. rewrite !lookup_insert_ne, !lookup_singleton_ne by done. done.
Qed.

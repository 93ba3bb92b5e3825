(** Proofs about the merge command. *)
From Verif Require Import Base Types CommentModel MergeModel CmdModel SpecBase BaseProofs StrProofs MergeSpec MergeClaims
  PropsMergeProofs CmdClaims CmdProofs.
Local Open Scope nat_scope.

Lemma merges_app ho m s1 s2 un m2 :
  merges ho m (s1 ++ s2) un m2 ↔
  ∃ u1 m1 u2, merges ho m s1 u1 m1 ∧ merges ho m1 s2 u2 m2 ∧ un = u1 ++ u2.
Proof.
  split.
  - revert m un. induction s1 as [|s s1 IH]; intros m un H; simpl in H.
    + exists [], m, un. split_and!; [constructor|done|done].
    + inversion H as [|m0 s0 m1 u sets0 un0 m20 Hm Hr]; subst.
      apply IH in Hr as (u1 & m1' & u2 & H1 & H2 & ->). exists (u ++ u1), m1', u2.
      split_and!; [by econstructor|done|by rewrite app_assoc].
  - intros (u1 & m1 & u2 & H1 & H2 & ->). induction H1 as [|m s m1' u sets un m3 Hm Hr IH]; [done|].
    simpl. rewrite <- app_assoc. econstructor; [done|]. by apply IH.
Qed.
Lemma merges_fun ho m s u1 m1 u2 m2 : merges ho m s u1 m1 → merges ho m s u2 m2 → u1 = u2 ∧ m1 = m2.
Proof.
  intros H. revert u2 m2. induction H as [|m s m1' u sets un m3 Hm Hr IH]; intros u2 m2 H2; inversion H2; subst; [done|].
  rewrite Hm in *. simplify_eq. edestruct IH as [-> ->]; [done|]. done.
Qed.
Lemma merges_reachable ho m s u m' : hash_order_ok ho → reachable m → merges ho m s u m' → reachable m'.
Proof.
  intros Hho Hr H. induction H as [|m s m1' u sets un m3 Hm H IH]; [done|]. apply IH.
  pose proof (reach_merge m ho s Hr Hho) as Hx. rewrite Hm in Hx. done.
Qed.

Lemma merge_sets_spec ho m un sets :
  hash_order_ok ho → reachable m →
  (∃ u m', merge_sets ho m un sets = Ok (m', un ++ u) ∧ merges ho m sets u m') ∨
  ((∃ e, merge_sets ho m un sets = Err e) ∧ ∀ u m', ¬ merges ho m sets u m').
Proof.
  intros Hho. revert m un. induction sets as [|s sets IH]; intros m un Hr; simpl.
  - left. exists [], m. rewrite app_nil_r. split; [done|constructor].
  - pose proof (reach_merge m ho s Hr Hho) as Hr1. pose proof (c02 m ho s Hr Hho) as [Hnp _].
    destruct (merge ho m s) as [m1 [u|e|]] eqn:Hm; simpl in *; [| |done].
    + destruct (IH m1 (un ++ u) Hr1) as [(u' & m' & E & H)|([e E] & H)].
      * left. exists (u ++ u'), m'. rewrite E, app_assoc. split; [done|]. by econstructor.
      * right. split; [by exists e|]. intros u' m' H'. inversion H'; subst.
        rewrite Hm in *. simplify_eq. by eapply H.
    + right. split; [by exists e|]. intros u' m' H'. inversion H'; subst. congruence.
Qed.

Lemma all_inputs_inv E w f fs s w' : all_inputs E w (f :: fs) s w' →
  ∃ l w1 sets rest, s = sets ++ rest ∧ reads E w f l w1 ∧ supported l ∧
    by_source (filespec_display E f) (transaction_postings_of <$> ledger_trns l) sets ∧ all_inputs E w1 fs rest w'.
Proof. inversion 1; subst. eexists _, _, _, _. split_and!; done. Qed.
Lemma all_inputs_fun E w fs s1 w1 s2 w2 :
  all_inputs E w fs s1 w1 → all_inputs E w fs s2 w2 → s1 = s2 ∧ w1 = w2.
Proof.
  intros H. revert s2 w2. induction H as [|w f l w1 sets fs rest w2 Hrd Hs Hb H IH]; intros s2 w3 H2; inversion H2; subst; [done|].
  destruct (reads_fun E w f l w1 l0 w4) as [-> ->]; [done..|].
  edestruct IH as [-> ->]; [done|]. split; [|done]. f_equal. by eapply by_source_fun.
Qed.

Lemma read_sources_spec E ho f w :
  hash_order_ok ho →
  ∃ es r, read_sources E ho f w = (es, r) ∧ quiet es ∧
    ((∃ l sets, r = Ok sets ∧ reads E w f l (steps w es) ∧ supported l ∧
        by_source (filespec_display E f) (transaction_postings_of <$> ledger_trns l) sets) ∨
     ((∃ e, r = Err e) ∧ ∀ l w', reads E w f l w' → ¬ supported l)).
Proof.
  intros Hho. unfold read_sources, io_bind, io_of, io_ret.
  destruct (read_ledger_spec E f w) as (es & r & -> & Hq & [(l & -> & Hr)|([e ->] & Hn)]).
  - destruct (decide (supported l)) as [Hs|Hs].
    + rewrite from_ledger_ok by done. eexists _, _. split; [done|]. rewrite !app_nil_r. split; [done|].
      left. exists l. eexists. split; [done|]. split_and!; [done|done|]. by apply sorted_groups_spec.
    + rewrite from_ledger_err by done. eexists _, _. split; [done|]. rewrite !app_nil_r. split; [done|].
      right. split; [by eexists|]. intros l' w' Hr'. destruct (reads_fun _ _ _ _ _ _ _ Hr Hr') as [-> _]. done.
  - eexists _, _. split; [done|]. split; [done|]. right. split; [by eexists|]. intros l w' Hr. by apply Hn in Hr.
Qed.

Lemma merge_inputs_spec E ho inputs : hash_order_ok ho → ∀ m un w, reachable m →
  ∃ es r, merge_inputs E ho m un inputs w = (es, r) ∧ quiet es ∧
    ((∃ sets u m', r = Ok (m', un ++ u) ∧ all_inputs E w inputs sets (steps w es) ∧ merges ho m sets u m') ∨
     ((∃ e, r = Err e) ∧ ∀ sets w' u m', all_inputs E w inputs sets w' → ¬ merges ho m sets u m')).
Proof.
  intros Hho. induction inputs as [|f inputs IH]; intros m un w Hr; simpl.
  - eexists _, _. split; [done|]. split; [constructor|]. left. exists [], [], m. rewrite app_nil_r.
    split_and!; [done|constructor|constructor].
  - unfold io_bind, io_of. destruct (read_sources_spec E ho f w Hho) as (es & r & -> & Hq & Hcase).
    destruct Hcase as [(l & sets & -> & Hrd & Hs & Hb)|([e ->] & Hn)].
    + destruct (merge_sets_spec ho m un sets Hho Hr) as [(u & m' & -> & Hm)|([e ->] & Hn)].
      * destruct (IH m' (un ++ u) (steps w es)) as (es' & r' & E' & Hq' & Hcase).
        { by eapply merges_reachable. }
        change (steps (steps w es) []) with (steps w es). rewrite E'.
        eexists _, _. split; [done|]. split; [by apply quiet_app|].
        destruct Hcase as [(sets' & u' & m'' & -> & Ha & Hm')|([e ->] & Hn)].
        -- left. exists (sets ++ sets'), (u ++ u'), m''. rewrite app_assoc. split; [done|].
           rewrite steps_app. split; [by econstructor|]. apply merges_app. by exists u, m', u'.
        -- right. split; [by eexists|]. intros s w' u' m'' Ha Hm'. apply all_inputs_inv in Ha as (l0 & w0 & sets0 & rest & -> & Hrd0 & Hs0 & Hb0 & Ha).
           destruct (reads_fun _ _ _ _ _ _ _ Hrd Hrd0) as [-> ->].
           rewrite (by_source_fun _ _ _ _ Hb0 Hb) in *.
           apply merges_app in Hm' as (u1 & m1 & u2 & H1 & H2 & ->).
           destruct (merges_fun _ _ _ _ _ _ _ Hm H1) as [-> ->]. by eapply Hn.
      * eexists _, _. split; [done|]. rewrite app_nil_r. split; [done|]. right. split; [by eexists|].
        intros s w' u' m'' Ha Hm'. apply all_inputs_inv in Ha as (l0 & w0 & sets0 & rest & -> & Hrd0 & Hs0 & Hb0 & Ha).
        destruct (reads_fun _ _ _ _ _ _ _ Hrd Hrd0) as [-> ->].
        rewrite (by_source_fun _ _ _ _ Hb0 Hb) in *.
        apply merges_app in Hm' as (u1 & m1 & u2 & H1 & H2 & ->). by eapply Hn.
    + eexists _, _. split; [done|]. split; [done|]. right. split; [by eexists|].
      intros s w' u' m'' Ha Hm'. apply all_inputs_inv in Ha as (l0 & w0 & sets0 & rest & -> & Hrd0 & Hs0 & Hb0 & Ha).
      by eapply Hn.
Qed.

Lemma merge_complete_fun E ho w inputs um un m un' m' :
  merge_complete E ho w inputs um un m → merge_complete E ho w inputs um un' m' → un = un' ∧ m = m'.
Proof.
  intros [(s & w1 & Ha & Hm) _] [(s' & w1' & Ha' & Hm') _].
  destruct (all_inputs_fun _ _ _ _ _ _ _ Ha Ha') as [-> ->]. by eapply merges_fun.
Qed.

(** The two ways a run can go. *)
Lemma merge_cmd_spec E ho inputs um output w :
  hash_order_ok ho →
  ∃ es r, merge_cmd E ho inputs um output w = (es, r) ∧
  (((∃ e, r = Err e) ∧ quiet es ∧ ∀ un m, ¬ merge_complete E ho w inputs um un m) ∨
   (∃ un m out es1 es2 es3, merge_complete E ho w inputs um un m ∧ reachable m ∧ build ho m = Ok out ∧
      es = es1 ++ es2 ++ es3 ∧ quiet es1 ∧
      ((un = [] ∧ es2 = [] ∧ write_file E output (e_print E (into_ledger ho (strip_sources out))) (steps w es1) = (es3, r)) ∨
       (∃ fu, un ≠ [] ∧ um = Some fu ∧
          ((write_file E fu (e_print E (into_ledger ho un)) (steps w es1) = (es2, r) ∧ (∃ e, r = Err e) ∧ es3 = []) ∨
           (write_file E fu (e_print E (into_ledger ho un)) (steps w es1) = (es2, Ok tt) ∧
            write_file E output (e_print E (into_ledger ho (strip_sources out))) (steps (steps w es1) es2) = (es3, r))))))).
Proof.
  intros Hho. unfold merge_cmd, io_bind, io_of.
  destruct (merge_inputs_spec E ho inputs Hho merger_new [] w ltac:(constructor)) as (es1 & r1 & -> & Hq & Hcase).
  destruct Hcase as [(sets & un & m & -> & Ha & Hm)|([e ->] & Hn)].
  2:{ eexists _, _. split; [done|]. left. split; [by eexists|]. split; [done|].
      intros un m [(s & w1 & Ha & Hm) _]. by eapply Hn. }
  simpl app. assert (Hr : reachable m) by (eapply merges_reachable; [done|constructor|done]).
  pose proof (c02 m ho [] Hr Hho) as [_ [out Hout]].
  unfold write_unmerged. destruct un as [|tp un].
  - unfold io_ret. rewrite Hout. unfold write_ledger. change (steps (steps (steps w es1) []) []) with (steps w es1).
    destruct (write_file E output _ (steps w es1)) as [es3 r3] eqn:Ew.
    eexists _, _. split; [done|]. right. exists [], m, out, es1, [], es3.
    split_and!; [split; [by eauto|by left]|done|done|done|done|]. left. split_and!; done.
  - destruct um as [fu|].
    + unfold write_ledger. destruct (write_file_spec E fu (e_print E (into_ledger ho (tp :: un))) (steps w es1))
        as (es2 & r2 & Ew2 & Hcase & _).
      rewrite Ew2. destruct Hcase as [[-> _]|[-> _]].
      * rewrite Hout. change (steps (steps (steps w es1) es2) []) with (steps (steps w es1) es2).
        destruct (write_file E output _ (steps (steps w es1) es2)) as [es3 r3] eqn:Ew.
        eexists _, _. split; [done|]. right. exists (tp :: un), m, out, es1, es2, es3.
        split_and!; [split; [by eauto|by right; eexists]|done|done|done|done|]. right. exists fu.
        split_and!; [done|done|]. by right.
      * eexists _, _. split; [done|]. right. exists (tp :: un), m, out, es1, es2, [].
        rewrite app_nil_r. split_and!; [split; [by eauto|by right; eexists]|done|done|done|done|]. right. exists fu.
        split_and!; [done|done|]. left. split_and!; [done|by eexists|done].
    + unfold io_fail. eexists _, _. split; [done|]. left. split; [by eexists|]. rewrite app_nil_r. split; [done|].
      intros un' m' Hc. assert (Hc' := Hc). destruct Hc' as [(s & w1 & Ha' & Hm') Hp].
      destruct (all_inputs_fun _ _ _ _ _ _ _ Ha Ha') as [<- <-].
      destruct (merges_fun _ _ _ _ _ _ _ Hm Hm') as [<- <-]. destruct Hp as [?|[? ?]]; done.
Qed.

Lemma untouched_trans w w1 w2 : untouched w w1 → untouched w1 w2 → untouched w w2.
Proof. unfold untouched. intros (->&->&->) (->&->&->). done. Qed.
Lemma written_untouched w w1 f text p : untouched w w1 → f ≠ Path p → same_file w (written w1 f text) p.
Proof. intros (H & _) Hf. unfold same_file. rewrite <- H. by apply written_other. Qed.

(** C25 *)
Lemma c25_failure E ho inputs um output w es r :
  hash_order_ok ho → merge_cmd E ho inputs um output w = (es, r) →
  (∀ un m, ¬ merge_complete E ho w inputs um un m) →
  (∃ e, r = Err e) ∧ ∀ w', crash_world w es w' → untouched w w'.
Proof.
  intros Hho Hc Hn. destruct (merge_cmd_spec E ho inputs um output w Hho) as (es' & r' & E' & Hcase).
  rewrite Hc in E'. injection E' as <- <-. destruct Hcase as [(He & Hq & _)|(un & m & ? & ? & ? & ? & Hm & _)].
  - split; [done|]. intros w' Hw. by eapply quiet_crash.
  - by apply Hn in Hm.
Qed.
Lemma c25_success E ho inputs um output w un m :
  hash_order_ok ho → merge_complete E ho w inputs um un m →
  (∀ f, um = Some f → writable E f) → writable E output →
  ∃ es, merge_cmd E ho inputs um output w = (es, Ok tt).
Proof.
  intros Hho Hm Hum Hout. destruct (merge_cmd_spec E ho inputs um output w Hho) as (es & r & E' & Hcase).
  rewrite E'. destruct Hcase as [(_ & _ & Hn)|(un' & m' & out & es1 & es2 & es3 & Hm' & Hr & Hb & -> & Hq & Hcase)];
    [by apply Hn in Hm|].
  assert (r = Ok tt) as ->; [|by eexists].
  destruct Hcase as [(-> & -> & Hw)|(fu & Hne & -> & [(Hw & [e ->] & ->)|(Hw & Hw')])].
  - edestruct (write_file_ok E output) as [es' Hw']; [done|]. rewrite Hw in Hw'. by injection Hw'.
  - edestruct (write_file_ok E fu) as [es' Hw']; [by apply Hum|]. rewrite Hw in Hw'. by injection Hw'.
  - edestruct (write_file_ok E output) as [es' Hw'']; [done|]. rewrite Hw' in Hw''. by injection Hw''.
Qed.
Lemma c25_written E ho inputs um output w es :
  hash_order_ok ho → merge_cmd E ho inputs um output w = (es, Ok tt) →
  ∃ un m out out', merge_complete E ho w inputs um un m ∧ build ho m = Ok out ∧ Forall2 unsourced out out' ∧
    let w' := steps w es in
    (um ≠ Some Stdio ∨ un = [] ∨ output ≠ Stdio →
       holds w w' output (e_print E (into_ledger ho out'))) ∧
    (∀ f, um = Some f → un ≠ [] → f ≠ output → holds w w' f (e_print E (into_ledger ho un))) ∧
    (∀ p, Path p ≠ output → (um = Some (Path p) → un = []) → same_file w w' p).
Proof.
  intros Hho Hc. destruct (merge_cmd_spec E ho inputs um output w Hho) as (es' & r' & E' & Hcase).
  rewrite Hc in E'. injection E' as <- <-.
  destruct Hcase as [([e ?] & _)|(un & m & out & es1 & es2 & es3 & Hm & Hr & Hb & -> & Hq & Hcase)]; [done|].
  exists un, m, out, (strip_sources out). split_and!; [done|done|apply strip_unsourced|]. simpl.
  pose proof (quiet_untouched w es1 Hq) as Hu. rewrite !steps_app.
  set (w1 := steps w es1) in *. set (text := e_print E (into_ledger ho (strip_sources out))) in *.
  set (textu := e_print E (into_ledger ho un)) in *.
  destruct Hcase as [(-> & -> & Hw)|(fu & Hne & -> & [(Hw & [e ?] & ->)|(Hw & Hw')])]; [|done|].
  - destruct (write_file_spec E output text w1) as (es' & r' & E' & [[-> Hs]|[-> _]] & _); [|congruence].
    rewrite Hw in E'. injection E' as <-. change (steps w1 []) with w1. rewrite Hs. split_and!.
    + intros _. pose proof (written_holds w1 output text). destruct output; simpl in *; [|done].
      destruct Hu as (_ & _ & ->). done.
    + done.
    + intros p Hp _. by apply written_untouched.
  - destruct (write_file_spec E fu textu w1) as (es' & r' & E' & [[-> Hs]|[-> _]] & _); [|congruence].
    rewrite Hw in E'. injection E' as <-. rewrite Hs in *.
    destruct (write_file_spec E output text (written w1 fu textu)) as (es' & r' & E' & [[-> Hs']|[-> _]] & _); [|congruence].
    rewrite Hw' in E'. injection E' as <-. rewrite Hs'. destruct Hu as (Hf & _ & Ho). split_and!.
    + intros Hd. destruct output as [|p]; simpl; [|by rewrite lookup_insert].
      destruct fu; simpl; [|by rewrite Ho]. naive_solver.
    + intros f [= <-] _ Hd. destruct output as [|p], fu as [|q]; simpl; try done.
      * by rewrite lookup_insert.
      * by rewrite Ho.
      * rewrite lookup_insert_ne by congruence. by rewrite lookup_insert.
    + intros p Hp Hq'. unfold same_file. destruct output as [|q], fu as [|q']; simpl.
      * by rewrite Hf.
      * rewrite lookup_insert_ne by naive_solver. by rewrite Hf.
      * rewrite lookup_insert_ne by congruence. by rewrite Hf.
      * rewrite lookup_insert_ne by congruence. rewrite lookup_insert_ne by naive_solver. by rewrite Hf.
Qed.

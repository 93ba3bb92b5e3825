(** Proofs for C154: running fmt before other commands makes no difference to them. *)
From stdpp Require Import gmap list.
From Verif Require Import Base Types MergeModel CmdModel RulesModel CmdClaims CmdProofs CmdFp TidyClaims.

Section tidy.
  Context (E : env).
  (** Every file has the same content in both worlds, or parses as the same ledger. *)
  Definition text_alike (a b : option str) : Prop := a = b ∨ ∃ t t', a = Some t ∧ b = Some t' ∧ e_parse E t = e_parse E t'.
  Definition world_alike (w w' : world) : Prop := w_stdin w = w_stdin w' ∧ ∀ p, text_alike (w_files w !! p) (w_files w' !! p).
  Definition same_io {A} (m : io A) : Prop := ∀ w w', world_alike w w' → m w = m w' ∧ world_alike (steps w (m w).1) (steps w' (m w).1).

  Lemma same_none {A} (r : result A) (m : io A) : (∀ w, m w = ([], r)) → same_io m.
  Proof. intros H w w' Ha. by rewrite !H. Qed.
  Lemma same_ret {A} (a : A) : same_io (io_ret a).
  Proof. by apply (same_none (Ok a)). Qed.
  Lemma same_fail {A} e : same_io (io_fail (A:=A) e).
  Proof. by apply (same_none (Err e)). Qed.
  Lemma same_of {A} (r : result A) : same_io (io_of r).
  Proof. by apply (same_none r). Qed.
  Lemma same_bind {A B} (m : io A) (k : A → io B) : same_io m → (∀ a, same_io (k a)) → same_io (io_bind m k).
  Proof.
    intros Hm Hk w w' Ha. destruct (Hm w w' Ha) as [E1 Ha1]. unfold io_bind. rewrite <- E1.
    destruct (m w) as [es [a|e|]]; cbn in *; [|done..]. destruct (Hk a _ _ Ha1) as [E2 Ha2]. unfold steps in *. rewrite <- E2.
    destruct (k a (foldl step w es)) as [es' r']. cbn in *. split; [done|]. by rewrite !foldl_app.
  Qed.
  Lemma same_read f : same_io (read_ledger E f).
  Proof.
    intros w w' [Hs Ha]. unfold read_ledger, io_bind, read_file. destruct (f_read E f); [by repeat split|].
    destruct f as [|p].
    - rewrite <- Hs. unfold io_of. cbn. by split.
    - destruct (Ha p) as [Hp|(t & t' & H1 & H2 & H3)].
      + rewrite Hp. destruct (w_files w' !! p); by repeat split.
      + rewrite H1, H2. unfold io_of. rewrite H3. by repeat split.
  Qed.
  Lemma put_eq (a b : option str) (c : char) : a = b → Some (default [] a ++ [c]) = Some (default [] b ++ [c]).
  Proof. by intros ->. Qed.
  Lemma same_puts f s w w' : world_alike w w' → (∀ p, f = Path p → w_files w !! p = w_files w' !! p) →
    world_alike (steps w (put f <$> s)) (steps w' (put f <$> s)).
  Proof.
    revert w w'. induction s as [|c s IH]; intros w w' [Hs Ha] Hp; [done|]. rewrite fmap_cons. unfold steps. cbn [foldl]. apply IH.
    - split; [by destruct f|]. intros q. destruct f as [|p]; cbn [step put w_files]; [apply Ha|].
      destruct (decide (p = q)) as [->|Hne]; [left; rewrite !lookup_insert; apply put_eq, (Hp q eq_refl)|rewrite !lookup_insert_ne by done; apply Ha].
    - intros p ->. cbn [step put w_files]. rewrite !lookup_insert. apply put_eq, (Hp p eq_refl).
  Qed.
  Lemma same_write f s : same_io (write_file E f s).
  Proof.
    intros w w' Ha. unfold write_file, io_bind, writer. destruct f as [|p].
    - unfold write_all, steps. cbn [foldl app]. destruct (f_write E Stdio) as [n|]; [destruct (n <? length s)%nat|]; (split; [done|]); by apply same_puts.
    - destruct (f_create E p); [by split|].
      assert (world_alike (steps w [EvCreate p]) (steps w' [EvCreate p])) as Hc.
      { destruct Ha as [Hs Ha]. split; [done|]. intros q. unfold steps. cbn [foldl step w_files].
        destruct (decide (p = q)) as [->|Hne]; [left; by rewrite !lookup_insert|rewrite !lookup_insert_ne by done; apply Ha]. }
      assert (∀ s, world_alike (steps w ([EvCreate p] ++ (put (Path p) <$> s))) (steps w' ([EvCreate p] ++ (put (Path p) <$> s)))) as H.
      { intros s'. unfold steps. rewrite !foldl_app. apply same_puts; [done|]. intros q [= <-]. cbn [foldl step w_files]. by rewrite !lookup_insert. }
      unfold write_all. destruct (f_write E (Path p)) as [n|]; [destruct (n <? length s)%nat|]; (split; [done|]); apply H.
  Qed.
  Lemma same_write_ledger f l : same_io (write_ledger E f l).
  Proof. apply same_write. Qed.

  Lemma same_inputs ho inputs : ∀ m un, same_io (merge_inputs E ho m un inputs).
  Proof.
    induction inputs as [|f inputs IH]; intros m un; cbn [merge_inputs]; [apply same_ret|].
    apply same_bind; [|intros sets; apply same_bind; [apply same_of|intros []; apply IH]].
    apply same_bind; [apply same_read|]. intros l. apply same_bind; [apply same_of|]. intros tps. apply same_ret.
  Qed.
  Lemma same_merge ho inputs um output : same_io (merge_cmd E ho inputs um output).
  Proof.
    apply same_bind; [apply same_inputs|]. intros [m un]. apply same_bind.
    - unfold write_unmerged. destruct un; [apply same_ret|]. destruct um; [apply same_write_ledger|apply same_fail].
    - intros _. apply same_bind; [apply same_of|]. intros tps. apply same_write_ledger.
  Qed.
  Lemma same_fmt js : same_io (fmt_cmd E js).
  Proof.
    induction js as [|f js IH]; cbn [fmt_cmd]; [apply same_ret|].
    apply same_bind; [apply same_read|]. intros l. apply same_bind; [apply same_write_ledger|]. intros _. apply IH.
  Qed.
  Lemma same_fpgen ho gen js : ∀ n, same_io (fpgen_cmd E ho gen n js).
  Proof.
    induction js as [|f js IH]; intros n; cbn [fpgen_cmd]; [apply same_ret|].
    apply same_bind; [apply same_read|]. intros l. apply same_bind; [apply same_of|]. intros tps.
    destruct (fpgen_trns ho gen n tps) as [n' tps']. apply same_bind; [apply same_write_ledger|]. intros _. apply IH.
  Qed.
  Lemma same_run {A B} (r : run A) (k : A → io (option B)) : (∀ a, same_io (k a)) → same_io (io_run r k).
  Proof. intros H. unfold io_run. destruct r as [r|]; [|apply same_ret]. apply same_bind; [apply same_of|done]. Qed.
  Lemma same_rules X F ho fuel rules input output : same_io (rules_cmd E X F ho fuel rules input output).
  Proof.
    apply same_run. intros T. apply same_bind; [apply same_read|]. intros l. apply same_bind; [apply same_of|]. intros tps.
    apply same_run. intros tps'. apply same_bind; [apply same_write_ledger|]. intros _. apply same_ret.
  Qed.
  Lemma same_command X F c : same_io (run_command E X F c).
  Proof.
    destruct c; cbn [run_command].
    - apply same_bind; [apply same_merge|]. intros u. apply same_ret.
    - apply same_bind; [apply same_fmt|]. intros u. apply same_ret.
    - apply same_bind; [apply same_fpgen|]. intros u. apply same_ret.
    - apply same_rules.
  Qed.
  Lemma same_commands X F cs : ∀ w w', world_alike w w' → run_commands E X F w cs = run_commands E X F w' cs.
  Proof.
    induction cs as [|c cs IH]; intros w w' Ha; [done|]. cbn [run_commands]. destruct (same_command X F c w w' Ha) as [E1 Ha1].
    rewrite <- E1. f_equal. by apply IH.
  Qed.
End tidy.

Lemma stdin_puts f s w : w_stdin (steps w (put f <$> s)) = w_stdin w.
Proof. revert w. induction s as [|c s IH]; intros w; [done|]. rewrite fmap_cons. unfold steps in *. cbn [foldl]. rewrite IH. by destruct f. Qed.
Lemma stdin_write E p s w : w_stdin (steps w (write_file E (Path p) s w).1) = w_stdin w.
Proof.
  unfold write_file, io_bind, writer. destruct (f_create E p); [done|]. unfold write_all.
  assert (∀ s, w_stdin (steps w ([EvCreate p] ++ (put (Path p) <$> s))) = w_stdin w) as H.
  { intros s'. unfold steps. rewrite foldl_app. apply (stdin_puts (Path p) s' (step w (EvCreate p))). }
  destruct (f_write E (Path p)) as [n|]; [destruct (n <? length s)%nat|]; apply H.
Qed.
Lemma stdin_fmt E js : ∀ w, w_stdin (steps w (fmt_cmd E (Path <$> js) w).1) = w_stdin w.
Proof.
  induction js as [|p js IH]; intros w; [done|]. rewrite fmap_cons. cbn [fmt_cmd]. unfold io_bind at 1.
  assert (∃ r, read_ledger E (Path p) w = ([], r)) as [r ->].
  { unfold read_ledger, io_bind, read_file. destruct (f_read E (Path p)); [by eexists|]. destruct (w_files w !! p); by eexists. }
  destruct r as [l|e|]; [|done..]. unfold io_bind, write_ledger. change (steps w []) with w. pose proof (stdin_write E p (e_print E l) w) as H.
  destruct (write_file E (Path p) (e_print E l) w) as [es1 [u|e|]]; cbn [fst] in *; [|done..].
  pose proof (IH (steps w es1)) as H2. destruct (fmt_cmd E (Path <$> js) (steps w es1)) as [es2 r2]. cbn [fst app] in *.
  unfold steps in *. by rewrite foldl_app, H2.
Qed.
Global Instance path_inj : Inj (=) (=) Path.
Proof. by intros ?? [= ->]. Qed.
Lemma c154 E X F js w es cs : NoDup js → fmt_cmd E (Path <$> js) w = (es, Ok tt) →
  (∀ p text l, p ∈ js → w_files w !! p = Some text → e_parse E text = Some l → e_parse E (e_print E l) = Some l) →
  run_commands E X F (steps w es) cs = run_commands E X F w cs.
Proof.
  intros Hnd Hr Hb. symmetry. apply same_commands. split.
  - pose proof (stdin_fmt E js w) as H. by rewrite Hr in H.
  - destruct (c72_fmt_done E (Path <$> js) w es) as [H1 H2]; [by apply (NoDup_fmap_2 _)|done|]. intros p.
    destruct (decide (p ∈ js)) as [Hp|Hp].
    + right. destruct (H1 p) as (text & text' & T & (l & P & ->) & T'); [by apply elem_of_list_fmap_1|]. exists text, (e_print E l).
      split_and!; [done|done|]. rewrite P. symmetry. by eapply Hb.
    + left. symmetry. apply H2. intros (q & Hq & Hin)%elem_of_list_fmap. by injection Hq as ->.
Qed.
Lemma c154_layout E X F w w' cs : w_stdin w = w_stdin w' →
  (∀ p, (w_files w !! p = None ∧ w_files w' !! p = None) ∨
        ∃ t t', w_files w !! p = Some t ∧ w_files w' !! p = Some t' ∧ e_parse E t = e_parse E t') →
  run_commands E X F w cs = run_commands E X F w' cs.
Proof.
  intros Hs Hf. apply same_commands. split; [done|]. intros p. destruct (Hf p) as [[-> ->]|(t & t' & H)]; [by left|]. right. by exists t, t'.
Qed.

(** Commands that are run again after they were interrupted (C127). *)
From Verif Require Import MergeClaims.
From Verif Require Import Base Types SpecBase BaseProofs CommentModel MergeModel CmdModel FingerprintModel NwCsvModel TzModel PaypalModel OcrModel PdfModel
  RulesModel CommentClaims CmdClaims CmdProofs CmdMerge CmdMerge2 CmdFp CmdOrder ImportClaims ImportProofs ImportRows PdfClaims PdfLaws ImporterModel WorkCmdClaims WorkCmd
  PdfWork MergeSpec RetryClaims.
Local Open Scope nat_scope.

(** * Files and events *)
Lemma step_same e w w' p : same_file w w' p → same_file (step w e) (step w' e) p.
Proof.
  unfold same_file. intros H. destruct e as [|q|q c|c|q]; cbn [step w_files]; [done| | |done|done].
  - destruct (decide (p = q)) as [->|Hne]; [by rewrite !lookup_insert|by rewrite !lookup_insert_ne].
  - destruct (decide (p = q)) as [->|Hne]; [|by rewrite !lookup_insert_ne]. rewrite !lookup_insert. exact (f_equal (λ o, Some (default [] o ++ [c])) H).
Qed.
Lemma steps_same es w w' p : same_file w w' p → same_file (steps w es) (steps w' es) p.
Proof. revert w w'. induction es as [|e es IH]; intros w w' H; [done|]. apply (IH (step w e) (step w' e)). by apply step_same. Qed.
Lemma steps_created es w w' p : EvCreate p ∈ es → same_file (steps w es) (steps w' es) p.
Proof.
  revert w w'. induction es as [|e es IH]; intros w w' H; [by apply elem_of_nil in H|]. apply elem_of_cons in H as [<-|H].
  - apply (steps_same es (step w (EvCreate p)) (step w' (EvCreate p))). unfold same_file. cbn [step w_files]. by rewrite !lookup_insert.
  - by apply (IH (step w e) (step w' e)).
Qed.
Definition changes (p : str) (e : event) : Prop := e = EvCreate p ∨ ∃ c, e = EvPut p c.
Lemma steps_unchanged es w p : (∀ e, e ∈ es → ¬ changes p e) → same_file w (steps w es) p.
Proof.
  revert w. induction es as [|e es IH]; intros w H; [done|]. change (steps w (e :: es)) with (steps (step w e) es).
  transitivity (w_files (step w e) !! p); [apply IH; intros e' He'; apply H; by right|].
  specialize (H e ltac:(left)). destruct e as [|q|q c|c|q]; cbn [step w_files]; [done| | |done|done].
  - rewrite lookup_insert_ne; [done|]. intros ->. apply H. by left.
  - rewrite lookup_insert_ne; [done|]. intros ->. apply H. right. by exists c.
Qed.
Lemma crash_unchanged es w w' p : crash_world w es w' → (∀ e, e ∈ es → ¬ changes p e) → same_file w w' p.
Proof. intros (a & b & -> & ->) H. apply steps_unchanged. intros e He. apply H, elem_of_app. by left. Qed.
Lemma quiet_changes es p e : quiet es → e ∈ es → ¬ changes p e.
Proof. intros Hq He. apply (proj1 (Forall_forall _ _) Hq) in He as ->. intros [[=]|[c [=]]]. Qed.
Lemma files_eq (w w' : world) : (∀ p, same_file w w' p) → w_files w' = w_files w.
Proof. intros H. apply map_eq. exact H. Qed.

(** * Writing does not depend on the world *)
Lemma write_file_world E f text w w' : write_file E f text w = write_file E f text w'.
Proof. unfold write_file, io_bind, writer, write_all. destruct f as [|p]; [done|]. by destruct (f_create E p). Qed.
Lemma put_changes f (text : str) p e : e ∈ put f <$> text → changes p e → f = Path p.
Proof. intros (c & -> & _)%elem_of_list_fmap. destruct f; cbn [put]; intros [[=]|[c' [= -> _]]]. done. Qed.
Lemma write_all_events E f text w es r : write_all E f text w = (es, r) → ∃ t, es = put f <$> t.
Proof. unfold write_all. destruct (f_write E f) as [n|]; [destruct (n <? length text)|]; intros [= <- <-]; by eexists. Qed.
Lemma write_file_events E f text w es r p e : write_file E f text w = (es, r) → e ∈ es → changes p e → f = Path p.
Proof.
  unfold write_file, io_bind, writer. destruct f as [|q].
  - destruct (write_all E Stdio text (steps w [])) as [es' r'] eqn:Hw. intros [= <- <-] He Hc.
    destruct (write_all_events _ _ _ _ _ _ Hw) as [t ->]. by eapply put_changes.
  - destruct (f_create E q); [intros [= <- <-] H%elem_of_nil; done|].
    destruct (write_all E (Path q) text (steps w [EvCreate q])) as [es' r'] eqn:Hw. intros [= <- <-] He Hc.
    apply elem_of_cons in He as [->|He]; [destruct Hc as [[= ->]|[c [=]]]; done|].
    destruct (write_all_events _ _ _ _ _ _ Hw) as [t ->]. by eapply put_changes.
Qed.
Lemma write_file_creates E p text w es : write_file E (Path p) text w = (es, Ok tt) → EvCreate p ∈ es.
Proof.
  unfold write_file, io_bind, writer. destruct (f_create E p); [done|].
  destruct (write_all E (Path p) text (steps w [EvCreate p])) as [es' r']. intros [= <- _]. left.
Qed.

(** * The merge command *)
Lemma read_file_same E p w w' : same_file w w' p → read_file E (Path p) w' = read_file E (Path p) w.
Proof. intros H. unfold read_file. by rewrite H. Qed.
Lemma read_file_quiet E p w : (read_file E (Path p) w).1 = [].
Proof. unfold read_file. destruct (f_read E (Path p)); [done|]. by destruct (w_files w !! p). Qed.
Lemma bind_same {A B} (m : io A) (k : A → io B) w w' : m w' = m w → (m w).1 = [] → (∀ a, k a w' = k a w) → io_bind m k w' = io_bind m k w.
Proof.
  intros E H Hk. unfold io_bind. rewrite E. destruct (m w) as [es r]. cbn [fst] in H. subst es.
  destruct r as [a| |]; [|done..]. change (steps w' []) with w'. change (steps w []) with w. by rewrite Hk.
Qed.
Lemma bind_quiet {A B} (m : io A) (k : A → io B) w : (m w).1 = [] → (∀ a, (k a w).1 = []) → (io_bind m k w).1 = [].
Proof.
  intros H Hk. unfold io_bind. destruct (m w) as [es r]. cbn [fst] in H. subst es. destruct r as [a| |]; [|done..].
  change (steps w []) with w. specialize (Hk a). by destruct (k a w).
Qed.
Lemma read_sources_same E ho p w w' : same_file w w' p →
  read_sources E ho (Path p) w' = read_sources E ho (Path p) w ∧ (read_sources E ho (Path p) w).1 = [].
Proof.
  intros H. unfold read_sources, read_ledger. split.
  - apply bind_same; [|apply bind_quiet; [apply read_file_quiet|done]|].
    + apply bind_same; [by apply read_file_same|apply read_file_quiet|done].
    + intros l. apply bind_same; done.
  - apply bind_quiet; [apply bind_quiet; [apply read_file_quiet|done]|]. intros l. by apply bind_quiet.
Qed.
Lemma merge_inputs_same E ho inputs w w' : (∀ f, f ∈ inputs → ∃ p, f = Path p ∧ same_file w w' p) → ∀ m un,
  merge_inputs E ho m un inputs w' = merge_inputs E ho m un inputs w ∧ (merge_inputs E ho m un inputs w).1 = [].
Proof.
  induction inputs as [|f inputs IH]; intros H m un; [done|]. destruct (H f ltac:(left)) as (p & -> & Hp). cbn [merge_inputs].
  destruct (read_sources_same E ho p w w' Hp) as [H1 H2].
  assert (∀ f, f ∈ inputs → ∃ p, f = Path p ∧ same_file w w' p) as H' by (intros f Hf; apply H; by right).
  split.
  - apply bind_same; [done..|]. intros sets. apply bind_same; [done..|]. intros [m' un']. apply (IH H').
  - apply bind_quiet; [done|]. intros sets. apply bind_quiet; [done|]. intros [m' un']. apply (IH H').
Qed.
Lemma bind_any {A B} (m : io A) (k : A → io B) w w' : (∀ w w', m w = m w') → (∀ a w w', k a w = k a w') → io_bind m k w = io_bind m k w'.
Proof. intros H Hk. unfold io_bind. rewrite (H w w'). destruct (m w') as [es [a| |]]; [|done..]. by rewrite (Hk a _ (steps w' es)). Qed.
Lemma merge_cmd_same E ho inputs um output w w' : (∀ f, f ∈ inputs → ∃ p, f = Path p ∧ same_file w w' p) →
  merge_cmd E ho inputs um output w' = merge_cmd E ho inputs um output w.
Proof.
  intros H. destruct (merge_inputs_same E ho inputs w w' H merger_new []) as [H1 H2]. unfold merge_cmd.
  apply bind_same; [done..|]. intros [m un]. apply bind_any.
  - intros w1 w2. destruct un, um; [done..| |done]. apply write_file_world.
  - intros _ w1 w2. apply bind_any; [done|]. intros tps w3 w4. apply write_file_world.
Qed.

Lemma all_inputs_programs E E' w inputs sets w' : same_programs E E' → all_inputs E' w inputs sets w' → ∀ sets' w'', all_inputs E w inputs sets' w'' → sets' = sets ∧ w'' = w'.
Proof.
  intros (Hp & _ & Hq & _) H. induction H as [w|w f l w1 sets fs rest w2 Hr Hs Hb H IH]; intros sets' w'' H'; [by inversion H'|].
  inversion H' as [|? ? l' w1' sets1 ? rest1 ? Hr' Hs' Hb' Ha']; subst.
  assert (l' = l ∧ w1' = w1) as [-> ->].
  { inversion Hr; inversion Hr'; subst; rewrite Hp in *; simplify_eq; done. }
  assert (filespec_display E' f = filespec_display E f) as Ed by (unfold filespec_display; by rewrite Hq). rewrite Ed in Hb.
  rewrite (by_source_fun _ _ _ _ Hb' Hb). destruct (IH _ _ Ha') as [-> ->]. done.
Qed.
Lemma merge_complete_programs E E' ho ho' w inputs um un m un' m' : same_programs E E' → hash_order_ok ho → hash_order_ok ho' →
  merge_complete E ho w inputs um un m → merge_complete E' ho' w inputs um un' m' → un = [] ↔ un' = [].
Proof.
  intros HE H H' [(sets & w1 & Ha & Hm) _] [(sets' & w1' & Ha' & Hm') _].
  destruct (all_inputs_programs _ _ _ _ _ _ HE Ha' _ _ Ha) as [-> _].
  destruct (merges_order ho ho' _ _ _ _ H H' reach_new Hm) as (un1 & Hm1 & HF).
  destruct (merges_fun _ _ _ _ _ _ _ Hm' Hm1) as [-> _]. split; intros ->; by inversion HF.
Qed.

Lemma merge_once E E1 ho ho1 inputs um output w w1 es es1 r1 : same_programs E E1 → hash_order_ok ho → hash_order_ok ho1 →
  apart inputs (output :: option_list um) → merge_cmd E ho inputs um output w = (es, Ok tt) →
  merge_cmd E1 ho1 inputs um output w = (es1, r1) → crash_world w es1 w1 →
  merge_cmd E ho inputs um output w1 = (es, Ok tt) ∧ w_files (steps w1 es) = w_files (steps w es).
Proof.
  intros HE H H1 Hap Hrun Hatt Hc.
  assert (∀ f, f ∈ inputs → ∃ p, f = Path p ∧ same_file w w1 p) as Hin.
  { intros f Hf. destruct (Hap f Hf) as [Hs Ho]. destruct f as [|p]; [done|]. exists p. split; [done|].
    apply (c28_others E1 ho1 inputs um output w es1 r1 w1 p); [done..| |].
    - intros ->. apply Ho. left.
    - intros ->. apply Ho. right. left. }
  split; [by rewrite (merge_cmd_same _ _ _ _ _ w w1)|]. apply files_eq. intros p.
  destruct (c28_partial_files E1 ho1 inputs um output w es1 r1 w1 p H1 Hatt Hc) as [Hs|(un1 & m1 & o1 & o2 & pt & rs & Hc1 & _ & _ & _ & Hcase)]; [by apply steps_same|].
  apply steps_created. destruct (merge_cmd_spec E ho inputs um output w H) as (es0 & r0 & E0 & Hspec). rewrite Hrun in E0. injection E0 as <- <-.
  destruct Hspec as [([e [=]] & _)|(un & m & out & e1 & e2 & e3 & Hcm & _ & _ & -> & _ & Hw)].
  pose proof (merge_complete_programs _ _ _ _ _ _ _ _ _ _ _ HE H H1 Hcm Hc1) as Hnil. rewrite !elem_of_app.
  destruct Hcase as [(-> & Hne & _)|(-> & _)].
  - right. left. destruct Hw as [(-> & _)|(fu & _ & [= <-] & [(_ & [e [=]] & _)|(Hw & _)])]; [by destruct Hne, Hnil; auto|].
    by eapply write_file_creates.
  - right. right. destruct Hw as [(_ & _ & Hw)|(fu & _ & _ & [(_ & [e [=]] & _)|(_ & Hw)])]; by eapply write_file_creates.
Qed.
Lemma retry {A} (cmd : env → hash_order → io A) E ho w w' a es :
  (∀ w w1 E1 ho1 es es1 r1, same_programs E E1 → hash_order_ok ho1 → cmd E ho w = (es, Ok a) → cmd E1 ho1 w = (es1, r1) → crash_world w es1 w1 →
     cmd E ho w1 = (es, Ok a) ∧ w_files (steps w1 es) = w_files (steps w es)) →
  attempts E cmd w w' → cmd E ho w = (es, Ok a) →
  cmd E ho w' = (es, Ok a) ∧ w_files (steps w' es) = w_files (steps w es).
Proof.
  intros Honce Hat. induction Hat as [w|w w1 w2 E1 ho1 es1 r1 _ IH HE H1 Hr Hc]; intros Hrun; [done|].
  destruct (IH Hrun) as [I1 I2]. destruct (Honce _ _ _ _ _ _ _ HE H1 I1 Hr Hc) as [J1 J2]. split; [done|]. by rewrite J2.
Qed.
Lemma merge_retry E ho inputs um output w w' es : hash_order_ok ho → apart inputs (output :: option_list um) →
  attempts E (λ E ho, merge_cmd E ho inputs um output) w w' → merge_cmd E ho inputs um output w = (es, Ok tt) →
  merge_cmd E ho inputs um output w' = (es, Ok tt) ∧ w_files (steps w' es) = w_files (steps w es).
Proof.
  intros H Hap Hat Hrun. apply (retry (λ E ho, merge_cmd E ho inputs um output) E ho w w' tt es); [|done..].
  intros. by eapply (merge_once E E1 ho ho1).
Qed.

(** * The files that a command can change *)
Definition changes_only {A} (out : filespec) (m : io A) : Prop := ∀ w e p, e ∈ (m w).1 → changes p e → out = Path p.
Lemma bind_only {A B} out (m : io A) (k : A → io B) : changes_only out m → (∀ a, changes_only out (k a)) → changes_only out (io_bind m k).
Proof.
  intros Hm Hk w e p. unfold io_bind. specialize (Hm w e p). destruct (m w) as [es [a| |]]; [|done..]. cbn [fst] in Hm.
  specialize (Hk a (steps w es) e p). destruct (k a (steps w es)) as [es' r]. cbn [fst] in *. intros [He|He]%elem_of_app; auto.
Qed.
Lemma of_only {A} out (r : result A) : changes_only out (io_of r).
Proof. intros w e p He%elem_of_nil. done. Qed.
Lemma ret_only {A} out (a : A) : changes_only out (io_ret a).
Proof. intros w e p He%elem_of_nil. done. Qed.
Lemma reads_only {A} out (m : io A) : (∀ w, only_reads (m w).1) → changes_only out m.
Proof. intros H w e p He Hc. by destruct (quiet_changes _ p e (only_reads_quiet _ (H w)) He). Qed.
Lemma read_only out E f : changes_only out (read_file E f).
Proof. apply reads_only. intros w. apply read_only_reads. Qed.
Lemma read_ledger_only out E f : changes_only out (read_ledger E f).
Proof. apply bind_only; [apply read_only|]. intros. apply of_only. Qed.
Lemma write_only E f text : changes_only f (write_file E f text).
Proof. intros w e p He Hc. destruct (write_file E f text w) as [es r] eqn:Hw. by eapply write_file_events. Qed.
Lemma run_only {A B} out (r : run A) (k : A → io (option B)) : (∀ a, changes_only out (k a)) → changes_only out (io_run r k).
Proof. intros H. unfold io_run. destruct r as [r|]; [|apply ret_only]. apply bind_only; [apply of_only|done]. Qed.
Lemma only_crash {A} out (m : io A) w es r w' p : changes_only out m → m w = (es, r) → crash_world w es w' → out ≠ Path p → same_file w w' p.
Proof.
  intros H Hm Hc Hp. apply (crash_unchanged es w w' p Hc). intros e He Hce. apply Hp. apply (H w e p); [|done]. by rewrite Hm.
Qed.

(** * Applying rules *)
Lemma rules_only E X F ho fuel rules input output : changes_only output (rules_cmd E X F ho fuel rules input output).
Proof.
  unfold rules_cmd. apply run_only. intros T. apply bind_only; [apply read_ledger_only|]. intros l. apply bind_only; [apply of_only|]. intros tps.
  apply run_only. intros tps'. apply bind_only; [apply write_only|]. intros _. apply ret_only.
Qed.
Lemma bind_inv {A B} (m : io A) (k : A → io B) w es b : io_bind m k w = (es, Ok b) →
  ∃ es1 a es2, m w = (es1, Ok a) ∧ k a (steps w es1) = (es2, Ok b) ∧ es = es1 ++ es2.
Proof.
  unfold io_bind. destruct (m w) as [es1 [a| |]] eqn:Hm; [|done..]. destruct (k a (steps w es1)) as [es2 r] eqn:Hk.
  intros [= <- ->]. by exists es1, a, es2.
Qed.
Lemma rules_creates E X F ho fuel rules input p w es : rules_cmd E X F ho fuel rules input (Path p) w = (es, Ok (Some tt)) → EvCreate p ∈ es.
Proof.
  unfold rules_cmd, io_run. destruct (load_from_path F ho fuel rules) as [r|]; [|done].
  intros (e1 & T & e2 & _ & H & ->)%bind_inv. apply bind_inv in H as (e3 & l & e4 & _ & H & ->). apply bind_inv in H as (e5 & tps & e6 & _ & H & ->).
  destruct (update_transactions X ho T fuel tps) as [r'|]; [|done].
  apply bind_inv in H as (e7 & tps' & e8 & _ & H & ->). apply bind_inv in H as (e9 & [] & e10 & Hw & _ & ->).
  apply write_file_creates in Hw. rewrite !elem_of_app. auto 10.
Qed.
Lemma rules_same E X F ho fuel rules p output w w' : same_file w w' p →
  rules_cmd E X F ho fuel rules (Path p) output w' = rules_cmd E X F ho fuel rules (Path p) output w.
Proof.
  intros H. unfold rules_cmd, io_run. destruct (load_from_path F ho fuel rules) as [r|]; [|done]. apply bind_same; [done..|]. intros T.
  apply bind_same.
  - apply bind_same; [by apply read_file_same|apply read_file_quiet|done].
  - apply bind_quiet; [apply read_file_quiet|done].
  - intros l. apply bind_same; [done..|]. intros tps. destruct (update_transactions X ho T fuel tps) as [r'|]; [|done]. apply bind_same; [done..|].
    intros tps'. apply bind_any; [apply write_file_world|done].
Qed.
Lemma once_files out w w' es : (∀ p, out ≠ Path p → same_file w w' p) → (∀ p, out = Path p → EvCreate p ∈ es) →
  w_files (steps w' es) = w_files (steps w es).
Proof.
  intros Ho Hc. apply files_eq. intros p. destruct (decide (out = Path p)) as [Hp|Hp]; [apply steps_created; auto|apply steps_same; auto].
Qed.
Lemma rules_retry E X F ho fuel rules input output w w' es : apart [input] [output] →
  attempts E (λ E ho, rules_cmd E X F ho fuel rules input output) w w' → rules_cmd E X F ho fuel rules input output w = (es, Ok (Some tt)) →
  rules_cmd E X F ho fuel rules input output w' = (es, Ok (Some tt)) ∧ w_files (steps w' es) = w_files (steps w es).
Proof.
  intros Hap Hat Hrun. apply (retry (λ E ho, rules_cmd E X F ho fuel rules input output) E ho w w' (Some tt) es); [|done..].
  clear w w' es Hat Hrun. intros w w1 E1 ho1 es es1 r1 HE H1 Hrun Hatt Hc.
  destruct (Hap input ltac:(left)) as [Hs Ho]. destruct input as [|p]; [done|].
  assert (∀ q, output ≠ Path q → same_file w w1 q) as Hsame.
  { intros q Hq. exact (only_crash output _ w es1 r1 w1 q (rules_only _ _ _ _ _ _ _ _) Hatt Hc Hq). }
  split.
  - rewrite (rules_same E X F ho fuel rules p output w w1); [done|]. apply Hsame. intros ->. apply Ho. left.
  - apply (once_files output); [done|]. intros q ->. by eapply rules_creates.
Qed.

(** * Importing *)
Lemma parents_only out E make f : changes_only out (make_parents E make f).
Proof.
  unfold make_parents. destruct make; cbn [negb]; [|apply ret_only]. destruct f as [|p]; [intros w e q He%elem_of_nil; done|].
  destruct (e_parent E p) as [d|]; [|apply ret_only]. intros w e q He Hc. destruct (f_mkdir E d); [by apply elem_of_nil in He|].
  apply elem_of_list_singleton in He as ->. destruct Hc as [[=]|[c [=]]].
Qed.
Lemma parents_world E make f w w' : make_parents E make f w = make_parents E make f w'.
Proof. unfold make_parents. destruct make; [|done]. destruct f as [|p]; [done|]. by destruct (e_parent E p). Qed.
Lemma placed_spec output sub ns out : output_spec output sub ns = Ok out ↔ placed output sub ns out.
Proof.
  unfold output_spec, placed. destruct sub; cbn [negb]; [|split; [by intros [= <-]|by intros ->]]. destruct output as [|p].
  - split; [done|]. intros (p & p' & [=] & _).
  - split.
    + intros [= <-]. exists p, (str_replace (s2l "%FP_NS%") ns p). split; [done|]. split; [done|]. by apply replace_spec.
    + intros (q & p' & [= <-] & -> & Hr). f_equal. f_equal. eapply replaced_fun; [|by apply replace_spec|done]. done.
Qed.
(** What an importer reads of the world. *)
Definition reads_files (imp : env → hash_order → io import) (files : list filespec) : Prop :=
  ∀ E ho w w', (∀ f, f ∈ files → ∃ p, f = Path p ∧ same_file w w' p) → imp E ho w' = imp E ho w ∧ (imp E ho w).1 = [].
Lemma import_once (imp : env → hash_order → io import) files output sub make E E1 ho ho1 w w1 es es1 r1 :
  (∀ es i es' i', imp E ho w = (es, Ok i) → imp E1 ho1 w = (es', Ok i') → im_namespace i' = im_namespace i) →
  reads_files imp files →
  (∀ es i out, imp E ho w = (es, Ok i) → placed output sub (im_namespace i) out → apart files [out]) →
  import_cmd E (imp E ho) output sub make w = (es, Ok tt) → import_cmd E1 (imp E1 ho1) output sub make w = (es1, r1) → crash_world w es1 w1 →
  import_cmd E (imp E ho) output sub make w1 = (es, Ok tt) ∧ w_files (steps w1 es) = w_files (steps w es).
Proof.
  intros Hns Hreads Hap Hrun Hatt Hc. pose proof Hrun as Hrun'. unfold import_cmd in Hrun'.
  apply bind_inv in Hrun' as (e1 & i & e2 & Hi & H & ->). apply bind_inv in H as (e3 & out & e4 & Ho & H & ->).
  unfold io_of in Ho. injection Ho as <- Ho. apply bind_inv in H as (e5 & [] & e6 & _ & Hw & ->).
  pose proof (proj1 (placed_spec _ _ _ _) Ho) as Hpl. specialize (Hap _ _ _ Hi Hpl).
  assert (∀ f, f ∈ files → ∃ p, f = Path p ∧ same_file w w p) as Hself.
  { intros f Hf. destruct (Hap f Hf) as [Hs _]. destruct f as [|p]; [done|]. by exists p. }
  assert (∀ q, out ≠ Path q → same_file w w1 q) as Hsame.
  { intros q Hq. unfold import_cmd in Hatt. unfold io_bind at 1 in Hatt. destruct (imp E1 ho1 w) as [ea ra] eqn:Ea.
    destruct (Hreads E1 ho1 w w Hself) as [_ Hq1]. rewrite Ea in Hq1. cbn [fst] in Hq1. subst ea.
    assert (∀ es w1, es = [] → crash_world w es w1 → same_file w w1 q) as Hnil.
    { intros es' w' -> Hc'. apply (crash_unchanged [] w w' q Hc'). intros e He%elem_of_nil. done. }
    destruct ra as [i1| |]; [|injection Hatt as <- _; by eapply Hnil..].
    pose proof (Hns _ _ _ _ Hi eq_refl) as En. change (steps w []) with w in Hatt. unfold io_bind at 1 in Hatt. unfold io_of in Hatt. rewrite En, Ho in Hatt.
    change (steps w []) with w in Hatt. destruct (io_bind _ _ w) as [eb rb] eqn:Eb. injection Hatt as <- <-. cbn [app] in Hc.
    refine (only_crash out _ w eb rb w1 q _ Eb Hc Hq). apply bind_only; [apply parents_only|]. intros _. apply write_only. }
  split.
  - assert (import_cmd E (imp E ho) output sub make w1 = import_cmd E (imp E ho) output sub make w) as ->; [|done].
    destruct (Hreads E ho w w1) as [H1 H2].
    { intros f Hf. destruct (Hap f Hf) as [Hs Hx]. destruct f as [|p]; [done|]. exists p. split; [done|]. apply Hsame. intros ->. apply Hx. left. }
    unfold import_cmd. apply bind_same; [done..|]. intros j. apply bind_any; [done|]. intros o w2 w3. apply bind_any; [apply parents_world|].
    intros _ w4 w5. apply write_file_world.
  - apply (once_files out); [done|]. intros p ->. apply write_file_creates in Hw. rewrite !elem_of_app. auto 10.
Qed.

Lemma import_retry (imp : env → hash_order → io import) files output sub make E ho w w' es :
  (∀ E ho E1 ho1 w es i es' i', hash_order_ok ho → hash_order_ok ho1 → imp E ho w = (es, Ok i) → imp E1 ho1 w = (es', Ok i') → im_namespace i' = im_namespace i) →
  reads_files imp files → hash_order_ok ho →
  (∀ out es i, imp E ho w = (es, Ok i) → placed output sub (im_namespace i) out → apart files [out]) →
  attempts E (λ E ho, import_cmd E (imp E ho) output sub make) w w' → import_cmd E (imp E ho) output sub make w = (es, Ok tt) →
  import_cmd E (imp E ho) output sub make w' = (es, Ok tt) ∧ w_files (steps w' es) = w_files (steps w es).
Proof.
  intros Hns Hreads Hho Hap Hat. revert Hap.
  assert (∀ w, import_cmd E (imp E ho) output sub make w = (es, Ok tt) → ∃ es1 i, imp E ho w = (es1, Ok i)) as Himp.
  { intros w0 (e1 & i & e2 & Hi & _)%bind_inv. by exists e1, i. }
  assert (∀ w w', attempts E (λ E ho, import_cmd E (imp E ho) output sub make) w w' → import_cmd E (imp E ho) output sub make w = (es, Ok tt) →
    (∀ out es i, imp E ho w = (es, Ok i) → placed output sub (im_namespace i) out → apart files [out]) →
    import_cmd E (imp E ho) output sub make w' = (es, Ok tt) ∧ w_files (steps w' es) = w_files (steps w es) ∧
    (∀ es i, imp E ho w' = (es, Ok i) → ∃ es', imp E ho w = (es', Ok i))) as Hgen.
  { intros w1 w2 Hat'. induction Hat' as [w1|w1 w2 w3 E1 ho1 es1 r1 _ IH HE H1 Hr Hc]; intros Hrun Hap; [eauto 10|].
    destruct (IH Hrun Hap) as (I1 & I2 & I3).
    assert (∀ es i out, imp E ho w2 = (es, Ok i) → placed output sub (im_namespace i) out → apart files [out]) as Hap2.
    { intros es' i out Hi Hp. destruct (I3 _ _ Hi) as [es'' Hi']. by eapply Hap. }
    assert (∀ es i es' i', imp E ho w2 = (es, Ok i) → imp E1 ho1 w2 = (es', Ok i') → im_namespace i' = im_namespace i) as Hn2 by (intros; by eapply (Hns E ho E1 ho1)).
    destruct (import_once imp files output sub make E E1 ho ho1 w2 w3 es es1 r1 Hn2 Hreads Hap2 I1 Hr Hc) as [J1 J2].
    split; [done|]. split; [by rewrite J2|]. intros es' i Hi. destruct (Himp _ J1) as (ea & i0 & Ei0). rewrite Ei0 in Hi. injection Hi as <- <-.
    destruct (Himp _ I1) as (eb & i2 & Ei2).
    (* the importer gives the same in both *)
    assert (imp E ho w3 = imp E ho w2) as Esame.
    { apply (Hreads E ho w2 w3). intros f Hf.
      pose proof I1 as Hx. unfold import_cmd in Hx. apply bind_inv in Hx as (ec & i3 & ed & Hi3 & Hx & _). apply bind_inv in Hx as (ee & out & ef & Ho & _ & _).
      unfold io_of in Ho. injection Ho as _ Ho. pose proof (Hap2 _ _ _ Hi3 (proj1 (placed_spec _ _ _ _) Ho) f Hf) as [Hs Hx].
      destruct f as [|p]; [done|]. exists p. split; [done|]. 
      assert (out ≠ Path p) as Hout by (intros ->; apply Hx; left).
      unfold import_cmd in Hr. unfold io_bind at 1 in Hr. destruct (imp E1 ho1 w2) as [eg rg] eqn:Eg.
      assert (eg = []) as ->.
      { destruct (Hreads E1 ho1 w2 w2) as [_ Hq]; [|by rewrite Eg in Hq]. intros f Hf'.
        destruct (Hap2 _ _ _ Hi3 (proj1 (placed_spec _ _ _ _) Ho) f Hf') as [Hs' _]. destruct f as [|q]; [done|]. by exists q. }
      assert (∀ es w1, es = [] → crash_world w2 es w1 → same_file w2 w1 p) as Hnil.
      { intros es' wx -> Hc'. apply (crash_unchanged [] w2 wx p Hc'). intros e He%elem_of_nil. done. }
      destruct rg as [i1| |]; [|injection Hr as <- _; by eapply Hnil..].
      pose proof (Hn2 _ _ _ _ Hi3 eq_refl) as En. change (steps w2 []) with w2 in Hr. unfold io_bind at 1 in Hr. unfold io_of in Hr. rewrite En, Ho in Hr.
      change (steps w2 []) with w2 in Hr. destruct (io_bind _ _ w2) as [eb' rb] eqn:Eb. injection Hr as <- <-. cbn [app] in Hc.
      refine (only_crash out _ w2 eb' rb w3 p _ Eb Hc Hout). apply bind_only; [apply parents_only|]. intros _. apply write_only. }
    rewrite Esame in Ei0. by apply I3 in Ei0. }
  intros Hap Hrun. destruct (Hgen w w' Hat Hrun Hap) as (? & ? & _). done.
Qed.

Lemma read_inv E p w es t : read_file E (Path p) w = (es, Ok t) → es = [] ∧ w_files w !! p = Some t.
Proof. unfold read_file. destruct (f_read E (Path p)); [done|]. destruct (w_files w !! p); [|done]. intros [= <- <-]. done. Qed.
Lemma of_inv {A} (r : result A) w es a : io_of r w = (es, Ok a) → es = [] ∧ r = Ok a.
Proof. unfold io_of. intros [= <- ->]. done. Qed.

Lemma nw_reads V pd o p : reads_files (λ E ho, nw_importer E V pd ho o (Path p)) [Path p].
Proof.
  intros E ho w w' H. destruct (H (Path p) ltac:(left)) as (q & [= <-] & Hq). unfold nw_importer. split.
  - apply bind_same; [by apply read_file_same|apply read_file_quiet|]. intros text. apply bind_same; [done..|]. intros rows. apply bind_same; [done..|]. by intros [ns ts].
  - apply bind_quiet; [apply read_file_quiet|]. intros text. apply bind_quiet; [done|]. intros rows. apply bind_quiet; [done|]. by intros [ns ts].
Qed.
Lemma nw_inv E V pd ho o p w es i : nw_importer E V pd ho o (Path p) w = (es, Ok i) →
  ∃ text rows, w_files w !! p = Some text ∧ ce_nationwide V text = Some rows ∧ nw_csv_import pd ho o rows = Ok (im_namespace i, im_transactions i).
Proof.
  intros (e1 & text & e2 & [-> Ht]%read_inv & H & ->)%bind_inv. apply bind_inv in H as (e3 & rows & e4 & [-> Hr]%of_inv & H & ->).
  apply bind_inv in H as (e5 & [ns ts] & e6 & [-> Hi]%of_inv & H & ->). unfold io_ret in H. injection H as <- <-.
  exists text, rows. split; [done|]. split; [|done]. unfold some_or in Hr. destruct (ce_nationwide V text) as [rows'|]; [by injection Hr as ->|done].
Qed.
Lemma nw_retry V pd o input output sub make E ho w w' es : hash_order_ok ho →
  (∀ ns ts out es, nw_importer E V pd ho o input w = (es, Ok (Import ns ts)) → placed output sub ns out → apart [input] [out]) →
  attempts E (λ E ho, import_cmd E (nw_importer E V pd ho o input) output sub make) w w' →
  import_cmd E (nw_importer E V pd ho o input) output sub make w = (es, Ok tt) →
  import_cmd E (nw_importer E V pd ho o input) output sub make w' = (es, Ok tt) ∧ w_files (steps w' es) = w_files (steps w es).
Proof.
  intros Hho Hap Hat Hrun.
  assert (∀ out es i, nw_importer E V pd ho o input w = (es, Ok i) → placed output sub (im_namespace i) out → apart [input] [out]) as Hap' by (intros out es' [ns ts] Hi; by eapply Hap).
  assert (∃ p, input = Path p) as [p ->].
  { pose proof Hrun as Hx. unfold import_cmd in Hx. apply bind_inv in Hx as (ec & i3 & ed & Hi3 & Hx & _). apply bind_inv in Hx as (ee & out & ef & Ho & _ & _).
    unfold io_of in Ho. injection Ho as _ Ho. destruct (Hap' _ _ _ Hi3 (proj1 (placed_spec _ _ _ _) Ho) input ltac:(left)) as [Hs _]. destruct input as [|p]; [done|by exists p]. }
  apply (import_retry (λ E ho, nw_importer E V pd ho o (Path p)) [Path p] output sub make E ho w w' es); [|apply nw_reads|done..].
  intros E0 ho0 E1 ho1 w0 es0 i es1 i' _ _ (t1 & r1 & H1 & H2 & H3)%nw_inv (t2 & r2 & H4 & H5 & H6)%nw_inv. simplify_eq.
  apply import_spec in H3 as (n & b & a & l & rows & name & rs & -> & Hp & _). apply import_spec in H6 as (n' & b' & a' & l' & rows' & name' & rs' & E' & Hp' & _).
  injection E' as -> -> -> _ _. by destruct (preamble_fun _ _ _ _ _ _ _ _ Hp Hp').
Qed.
Lemma pp_retry V legacy tz ns input abbrs output sub make E ho w w' es : hash_order_ok ho →
  (∀ out, placed output sub ns out → apart [input; abbrs] [out]) →
  attempts E (λ E ho, import_cmd E (pp_importer E V ho legacy tz ns input abbrs) output sub make) w w' →
  import_cmd E (pp_importer E V ho legacy tz ns input abbrs) output sub make w = (es, Ok tt) →
  import_cmd E (pp_importer E V ho legacy tz ns input abbrs) output sub make w' = (es, Ok tt) ∧ w_files (steps w' es) = w_files (steps w es).
Proof.
  intros Hho Hap Hat Hrun.
  assert (∀ E ho w es i, pp_importer E V ho legacy tz ns input abbrs w = (es, Ok i) → im_namespace i = ns) as Hns.
  { intros E0 ho0 w0 es0 i. unfold pp_importer. intros (? & ? & ? & _ & H & _)%bind_inv. apply bind_inv in H as (? & ? & ? & _ & H & _).
    apply bind_inv in H as (? & ? & ? & _ & H & _). apply bind_inv in H as (? & ? & ? & _ & H & _). apply bind_inv in H as (? & ? & ? & _ & H & _).
    apply bind_inv in H as (? & ? & ? & _ & H & _). unfold io_ret in H. by injection H as _ <-. }
  apply (import_retry (λ E ho, pp_importer E V ho legacy tz ns input abbrs) [input; abbrs] output sub make E ho w w' es); [| |done| |done..].
  - intros E0 ho0 E1 ho1 w0 es0 i es1 i' _ _ H1%Hns H2%Hns. congruence.
  - intros E0 ho0 w0 w1 H. destruct (H input ltac:(left)) as (p & -> & Hp). destruct (H abbrs ltac:(right; left)) as (q & -> & Hq). unfold pp_importer. split.
    + apply bind_same; [by apply read_file_same|apply read_file_quiet|]. intros text. apply bind_same; [by apply read_file_same|apply read_file_quiet|]. intros at'.
      apply bind_same; [done..|]. intros ar. apply bind_same; [done..|]. intros db. apply bind_same; [done..|]. intros rows. apply bind_same; [done..|]. by intros ts.
    + apply bind_quiet; [apply read_file_quiet|]. intros text. apply bind_quiet; [apply read_file_quiet|]. intros at'.
      apply bind_quiet; [done|]. intros ar. apply bind_quiet; [done|]. intros db. apply bind_quiet; [done|]. intros rows. apply bind_quiet; [done|]. by intros ts.
  - intros out es0 i Hi%Hns Hp. rewrite Hi in Hp. by apply Hap.
Qed.
Lemma pdf_retry X T o output sub make doc E ho w w' es : hash_order_ok ho → PdfWorkClaims.shows T doc →
  attempts E (λ E ho, import_cmd E (pdf_importer X T ho o) output sub make) w w' →
  import_cmd E (pdf_importer X T ho o) output sub make w = (es, Ok tt) →
  import_cmd E (pdf_importer X T ho o) output sub make w' = (es, Ok tt) ∧ w_files (steps w' es) = w_files (steps w es).
Proof.
  intros Hho Hs Hat Hrun.
  apply (import_retry (λ E ho, pdf_importer X T ho o) [] output sub make E ho w w' es); [| |done| |done..].
  - intros E0 ho0 E1 ho1 w0 es0 i es1 i' Hh0 Hh1 H1 H2.
    assert (∀ ho es i, hash_order_ok ho → pdf_importer X T ho o w0 = (es, Ok i) → ∃ name, account_is doc name ∧ make_namespace o name = Ok (im_namespace i)) as Hns.
    { intros ho' es' i0 Hh. unfold pdf_importer. intros (? & doc' & ? & [-> Hd]%of_inv & H & _)%bind_inv. rewrite (shows_document _ _ _ Hh Hs) in Hd. injection Hd as <-.
      apply bind_inv in H as (? & [ns ts] & ? & [-> Hi]%of_inv & H & _). unfold io_ret in H. injection H as _ <-.
      apply c66_only in Hi as (name & ls & skip & gs & Ha & Hm & _). by exists name. }
    destruct (Hns _ _ _ Hh0 H1) as (n1 & A1 & M1). destruct (Hns _ _ _ Hh1 H2) as (n2 & A2 & M2). rewrite (account_fun _ _ _ A1 A2) in M1. rewrite M1 in M2. by injection M2.
  - intros E0 ho0 w0 w1 _. unfold pdf_importer. split.
    + apply bind_same; [done..|]. intros d. apply bind_same; [done..|]. by intros [ns ts].
    + apply bind_quiet; [done|]. intros d. apply bind_quiet; [done|]. by intros [ns ts].
  - intros out es0 i _ _ f Hf%elem_of_nil. done.
Qed.

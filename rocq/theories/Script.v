(** Scripts of commands that are run again (C129). *)
From Verif Require Import MergeClaims.
From Verif Require Import Base Types SpecBase BaseProofs CommentModel MergeModel CmdModel FingerprintModel NwCsvModel TzModel PaypalModel OcrModel PdfModel
  RulesModel CommentClaims CmdClaims CmdProofs CmdMerge CmdMerge2 CmdFp CmdOrder ImportClaims ImportProofs ImportRows PdfClaims PdfLaws ImporterModel WorkCmdClaims WorkCmd
  PdfWork MergeSpec RetryClaims Retry ScriptClaims.
Local Open Scope nat_scope.

(** * What can be changed *)
Definition changes_in {A} (P : str → Prop) (m : io A) : Prop := ∀ w e p, e ∈ (m w).1 → changes p e → P p.
Lemma only_in {A} (P : str → Prop) out (m : io A) : (∀ p, out = Path p → P p) → changes_only out m → changes_in P m.
Proof. intros HP H w e p He Hc. apply HP. by eapply H. Qed.
Lemma bind_in {A B} (P : str → Prop) (m : io A) (k : A → io B) : changes_in P m → (∀ a, changes_in P (k a)) → changes_in P (io_bind m k).
Proof.
  intros Hm Hk w e p. unfold io_bind. specialize (Hm w e p). destruct (m w) as [es [a| |]]; [|done..]. cbn [fst] in Hm.
  specialize (Hk a (steps w es) e p). destruct (k a (steps w es)) as [es' r]. cbn [fst] in *. intros [He|He]%elem_of_app; auto.
Qed.
Lemma of_in {A} (P : str → Prop) (r : result A) : changes_in P (io_of r).
Proof. intros w e p He%elem_of_nil. done. Qed.
Lemma write_in (P : str → Prop) E f text : (∀ p, f = Path p → P p) → changes_in P (write_file E f text).
Proof. intros H. by apply (only_in P f), write_only. Qed.
Lemma read_in P E f : changes_in P (read_file E f).
Proof. intros w e p He Hc. exact (False_ind _ (quiet_changes _ p e (only_reads_quiet _ (read_only_reads E f w)) He Hc)). Qed.
Lemma merge_inputs_in P E ho inputs m un : changes_in P (merge_inputs E ho m un inputs).
Proof.
  revert m un. induction inputs as [|f inputs IH]; intros m un; cbn [merge_inputs]; [apply of_in|].
  apply bind_in.
  - unfold read_sources, read_ledger. apply bind_in; [apply bind_in; [apply read_in|intros; apply of_in]|].
    intros l. apply bind_in; [apply of_in|]. intros. apply of_in.
  - intros sets. apply bind_in; [apply of_in|]. intros [m' un']. apply IH.
Qed.
Lemma import_in E imp output sub make : (∀ P, changes_in P imp) → changes_in (λ p, ∃ ns, placed output sub ns (Path p)) (import_cmd E imp output sub make).
Proof.
  intros H. unfold import_cmd. apply bind_in; [apply H|]. intros i. unfold io_bind at 1. intros w e p. unfold io_of at 1.
  destruct (output_spec output sub (im_namespace i)) as [out| |] eqn:Ho; [|intros He%elem_of_nil; done..].
  change (steps w []) with w. destruct (io_bind _ _ w) as [eb rb] eqn:Eb. cbn [fst app]. intros He Hc.
  assert (changes_only out (io_bind (make_parents E make out) (λ _, write_ledger E out (ledger_from_transactions (im_transactions i))))) as Hx.
  { apply bind_only; [apply parents_only|]. intros _. apply write_only. }
  specialize (Hx w e p). rewrite Eb in Hx. specialize (Hx He Hc). subst out. exists (im_namespace i). by apply placed_spec.
Qed.
Lemma execute_in E ho c : changes_in (may_write c) (execute E ho c).
Proof.
  destruct c as [inputs um output|X F fuel rules input output|V pd o input output sub make|V legacy tz ns input abbrs output sub make|X T o output sub make]; cbn [execute may_write].
  - unfold merge_cmd. apply bind_in; [apply merge_inputs_in|]. intros [m un]. apply bind_in.
    + unfold write_unmerged. destruct un as [|tp un]; [apply of_in|]. destruct um as [f|]; [|apply of_in]. apply write_in. intros p ->. by left.
    + intros _. apply bind_in; [apply of_in|]. intros tps. apply write_in. intros p ->. by right.
  - apply bind_in; [apply (only_in _ output); [done|apply rules_only]|]. intros [?|]; apply of_in.
  - apply import_in. intros P. unfold nw_importer. apply bind_in; [apply read_in|]. intros t. apply bind_in; [apply of_in|]. intros rows.
    apply bind_in; [apply of_in|]. intros [ns ts]. apply of_in.
  - apply import_in. intros P. unfold pp_importer. apply bind_in; [apply read_in|]. intros t. apply bind_in; [apply read_in|]. intros at'.
    apply bind_in; [apply of_in|]. intros ar. apply bind_in; [apply of_in|]. intros db. apply bind_in; [apply of_in|]. intros rows. apply bind_in; [apply of_in|]. intros ts. apply of_in.
  - apply import_in. intros P. unfold pdf_importer. apply bind_in; [apply of_in|]. intros d. apply bind_in; [apply of_in|]. intros [ns ts]. apply of_in.
Qed.
Lemma script_in E ho cs : changes_in (λ p, ∃ c, c ∈ cs ∧ may_write c p) (script E ho cs).
Proof.
  induction cs as [|c cs IH]; cbn [script]; [apply of_in|]. apply bind_in.
  - intros w e p He Hc. exists c. split; [left|]. by eapply execute_in.
  - intros _ w e p He Hc. destruct (IH w e p He Hc) as (d & Hd & Hw). exists d. split; [by right|done].
Qed.
Lemma tried_same cs w w' p : tried cs w w' → (∀ c, c ∈ cs → ¬ may_write c p) → same_file w w' p.
Proof.
  intros H Hp. induction H as [w|w w1 w2 E ho ds es r _ IH Hds Hs Hc]; [done|]. transitivity (w_files w1 !! p); [|exact IH].
  apply (crash_unchanged es w1 w2 p Hc). intros e He Hch. destruct (script_in E ho ds w1 e p) as (c & Hcd & Hw); [by rewrite Hs|done|].
  apply (Hp c); [by apply Hds|done].
Qed.

(** * What is read *)
Lemma import_same E (imp : io import) output sub make w w' : imp w' = imp w → (imp w).1 = [] →
  import_cmd E imp output sub make w' = import_cmd E imp output sub make w.
Proof.
  intros H1 H2. unfold import_cmd. apply bind_same; [done..|]. intros j. apply bind_any; [done|]. intros o w2 w3. apply bind_any; [apply parents_world|].
  intros _ w4 w5. apply write_file_world.
Qed.
Lemma execute_same E ho c w w' : (∀ f, f ∈ reads c → ∃ p, f = Path p ∧ same_file w w' p) → execute E ho c w' = execute E ho c w.
Proof.
  destruct c as [inputs um output|X F fuel rules input output|V pd o input output sub make|V legacy tz ns input abbrs output sub make|X T o output sub make]; cbn [execute reads]; intros H.
  - by apply merge_cmd_same.
  - destruct (H input ltac:(left)) as (p & -> & Hp). unfold io_bind. rewrite (rules_same E X F ho fuel rules p output w w' Hp).
    destruct (rules_cmd E X F ho fuel rules (Path p) output w) as [es [[r|]| |]]; done.
  - destruct (H input ltac:(left)) as (p & -> & Hp). destruct (nw_reads V pd o p E ho w w') as [H1 H2]; [exact H|]. by apply import_same.
  - destruct (H input ltac:(left)) as (p & -> & Hp). destruct (H abbrs ltac:(right; left)) as (q & -> & Hq). apply import_same; unfold pp_importer.
    + apply bind_same; [by apply read_file_same|apply read_file_quiet|]. intros text. apply bind_same; [by apply read_file_same|apply read_file_quiet|]. intros at'.
      apply bind_same; [done..|]. intros ar. apply bind_same; [done..|]. intros db. apply bind_same; [done..|]. intros rows. apply bind_same; [done..|]. by intros ts.
    + apply bind_quiet; [apply read_file_quiet|]. intros text. apply bind_quiet; [apply read_file_quiet|]. intros at'.
      apply bind_quiet; [done|]. intros ar. apply bind_quiet; [done|]. intros db. apply bind_quiet; [done|]. intros rows. apply bind_quiet; [done|]. by intros ts.
  - apply import_same; unfold pdf_importer.
    + apply bind_same; [done..|]. intros d. apply bind_same; [done..|]. by intros [ns ts].
    + apply bind_quiet; [done|]. intros d. apply bind_quiet; [done|]. by intros [ns ts].
Qed.

(** * What is written *)
Lemma import_creates E imp output make w es p : import_cmd E imp output false make w = (es, Ok tt) → output = Path p → EvCreate p ∈ es.
Proof.
  intros H ->. unfold import_cmd in H. apply bind_inv in H as (e1 & i & e2 & Hi & H & ->). apply bind_inv in H as (e3 & out & e4 & Ho & H & ->).
  unfold io_of, output_spec in Ho. cbn [negb] in Ho. injection Ho as <- <-. apply bind_inv in H as (e5 & [] & e6 & _ & Hw & ->).
  apply write_file_creates in Hw. rewrite !elem_of_app. auto 10.
Qed.
Lemma execute_creates E ho c w es p : execute E ho c w = (es, Ok tt) → must_write c p → EvCreate p ∈ es.
Proof.
  destruct c as [inputs um output|X F fuel rules input output|V pd o input output sub make|V legacy tz ns input abbrs output sub make|X T o output sub make]; cbn [execute must_write].
  - intros H ->. unfold merge_cmd in H. apply bind_inv in H as (e1 & [m un] & e2 & _ & H & ->). apply bind_inv in H as (e3 & [] & e4 & _ & H & ->).
    apply bind_inv in H as (e5 & tps & e6 & _ & Hw & ->). apply write_file_creates in Hw. rewrite !elem_of_app. auto 10.
  - intros (e1 & [u|] & e2 & H & Hx & ->)%bind_inv ->; [|done]. destruct u. apply rules_creates in H. apply elem_of_app. by left.
  - intros H [-> ->]. by eapply import_creates.
  - intros H [-> ->]. by eapply import_creates.
  - intros H [-> ->]. by eapply import_creates.
Qed.

(** * Scripts *)
Lemma steps_app w a b : steps w (a ++ b) = steps (steps w a) b.
Proof. unfold steps. by rewrite foldl_app. Qed.
Lemma script_again E ho cs : in_order cs → ∀ b a v v' past es, cs = a ++ b →
  (∀ d p, d ∈ a → must_write d p → EvCreate p ∈ past) →
  (∀ p, EvCreate p ∈ past ∨ (∀ d, d ∈ cs → ¬ may_write d p) → same_file v v' p) →
  script E ho b v = (es, Ok tt) →
  script E ho b v' = (es, Ok tt) ∧ ∀ p, EvCreate p ∈ past ++ es ∨ (∀ d, d ∈ cs → ¬ may_write d p) → same_file (steps v es) (steps v' es) p.
Proof.
  intros Hord. induction b as [|c b IH]; intros a v v' past es Hcs Hpast Hsame Hrun; cbn [script] in *.
  - injection Hrun as <-. split; [done|]. rewrite app_nil_r. exact Hsame.
  - apply bind_inv in Hrun as (e1 & [] & e2 & Hc & Hb & ->).
    assert (execute E ho c v' = (e1, Ok tt)) as Hc'.
    { rewrite (execute_same E ho c v v'); [done|]. intros f Hf. destruct (Hord a c b f Hcs Hf) as (p & -> & Hp). exists p. split; [done|].
      apply Hsame. destruct Hp as [(d & Hd & Hw)|Hp]; [left; by eapply Hpast|by right]. }
    destruct (IH (a ++ [c]) (steps v e1) (steps v' e1) (past ++ e1) e2) as [I1 I2].
    + by rewrite <- app_assoc.
    + intros d p [Hd| ->%elem_of_list_singleton]%elem_of_app Hw; apply elem_of_app; [left; by eapply Hpast|right; by eapply execute_creates].
    + intros p [[Hp|Hp]%elem_of_app|Hp]; [apply steps_same; auto|by apply steps_created|apply steps_same; auto].
    + done.
    + split.
      * unfold io_bind. rewrite Hc'. by rewrite I1.
      * intros p Hp. rewrite !steps_app. apply I2. rewrite <- app_assoc. exact Hp.
Qed.
Lemma script_retry E ho cs w w' es : in_order cs → tried cs w w' → script E ho cs w = (es, Ok tt) →
  script E ho cs w' = (es, Ok tt) ∧ ∀ p, EvCreate p ∈ es ∨ (∀ d, d ∈ cs → ¬ may_write d p) → same_file (steps w es) (steps w' es) p.
Proof.
  intros Hord Ht Hrun. apply (script_again E ho cs Hord cs [] w w' [] es); [done|intros d p []%elem_of_nil| |done].
  intros p [[]%elem_of_nil|Hp]. by apply (tried_same cs).
Qed.
Lemma script_files E ho cs w w' es : in_order cs → tried cs w w' → script E ho cs w = (es, Ok tt) →
  (∀ d p, d ∈ cs → may_write d p → EvCreate p ∈ es) →
  script E ho cs w' = (es, Ok tt) ∧ w_files (steps w' es) = w_files (steps w es).
Proof.
  intros Hord Ht Hrun Hall. destruct (script_retry E ho cs w w' es Hord Ht Hrun) as [H1 H2]. split; [done|].
  apply files_eq. intros p. destruct (decide (EvCreate p ∈ es)) as [Hp|Hp]; [auto|]. apply H2. right. intros d Hd Hw. apply Hp. by eapply Hall.
Qed.

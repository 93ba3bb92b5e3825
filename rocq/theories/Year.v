(** Scripts for several accounts (C133). *)
From Verif Require Import MergeClaims.
From stdpp Require Import gmap list.
From Verif Require Import Base Types SpecBase BaseProofs CommentModel MergeModel CmdModel FingerprintModel NwCsvModel TzModel PaypalModel OcrModel PdfModel
  CommentClaims CommentLaws CmdClaims CmdProofs CmdMerge CmdFp CmdIdem ImportClaims EditClaims WindowClaims StatementClaims PdfClaims PdfDaysClaims RulesModel RulesClaims RulesCmd
  HeaderClaims CmdPlain ImporterModel ImporterClaims ImporterLaws WorkCmdClaims WorkCmd PdfWorkClaims PdfWork PipeClaims Pipe ScriptClaims BooksClaims
  AssertClaims AccountsClaims Accounts Accounts2 Accounts3 YearClaims.
Local Open Scope nat_scope.

Lemma script_app E ho a b w es : script E ho (a ++ b) w = (es, Ok tt) ↔
  ∃ es1 es2, script E ho a w = (es1, Ok tt) ∧ script E ho b (steps w es1) = (es2, Ok tt) ∧ es = es1 ++ es2.
Proof.
  revert w es. induction a as [|c a IH]; intros w es.
  - cbn [app script]. split; [intros H; by exists [], es|]. intros (es1 & es2 & [= <-] & H & ->). done.
  - cbn [app script]. unfold io_bind. destruct (execute E ho c w) as [e0 [[]| |]] eqn:Ee.
    + destruct (script E ho (a ++ b) (steps w e0)) as [e1 r] eqn:E1. split.
      * intros [= <- ->]. apply IH in E1 as (es1 & es2 & -> & H2 & ->). exists (e0 ++ es1), es2. rewrite steps_app, app_assoc. done.
      * intros (es1 & es2 & H1 & H2 & ->). destruct (script E ho a (steps w e0)) as [e2 r2] eqn:E2. injection H1 as <- ->.
        rewrite steps_app in H2. assert (script E ho (a ++ b) (steps w e0) = (e2 ++ es2, Ok tt)) as E3 by (apply IH; eauto).
        rewrite E3 in E1. injection E1 as <- <-. by rewrite app_assoc.
    + split; [done|]. by intros (? & ? & ? & _).
    + split; [done|]. by intros (? & ? & ? & _).
Qed.
Lemma script_one E ho c w es : script E ho [c] w = (es, Ok tt) ↔ execute E ho c w = (es, Ok tt).
Proof.
  cbn [script]. unfold io_bind. destruct (execute E ho c w) as [e0 [[]| |]]; [|done..]. cbn. by rewrite app_nil_r.
Qed.

(** * One import *)
Lemma import_cmd_imports E imp out w es : import_cmd E imp (Path out) false false w = (es, Ok tt) →
  ∃ es0 ns ts, imp w = (es0, Ok (Import ns ts)).
Proof. unfold import_cmd, io_bind at 1. destruct (imp w) as [es0 [[ns ts]| |]]; [|done..]. intros _. by exists es0, ns, ts. Qed.
Lemma import_step E V ho a w es j : execute E ho (import_command V a j) w = (es, Ok tt) → statement_there V ho w a j →
  (∀ p, p ∈ job_reads a j → f_read E (Path p) = false) →
  ∃ ts, statement_of a (jb_days j) ts ∧ (∀ t, t ∈ ts → t_comment t = None) ∧
    w_files (steps w es) !! jb_imported j = Some (e_print E (ledger_from_transactions ts)) ∧
    ∀ p, p ≠ jb_imported j → w_files (steps w es) !! p = w_files w !! p.
Proof.
  destruct a as [pd o name rows|tz db ns groups|P o name ds parts]; cbn [import_command execute statement_there job_reads statement_of]; intros H Hst Hr;
    destruct (import_cmd_imports _ _ _ _ _ H) as (es0 & ns0 & ts & Hi).
  - destruct Hst as (Hho & Hnd & text & records & Ht & Hv & Hok & Hs). cbn [sf_order sf_csv sf_out sf_days] in *.
    pose proof (nw_only_reads E V pd ho o (Path (jb_csv j)) w) as Hq. rewrite Hi in Hq. cbn [fst] in Hq.
    destruct (import_writes _ _ _ _ _ _ _ _ Hi Hq H) as [F1 F2].
    apply (nw_import_reads E V pd ho o (jb_csv j) w es0 ns0 ts text records) in Hi; [|apply Hr; left|done|done].
    exists ts. split; [|split; [|done]]; [|intros t; by eapply nw_no_comment]. split; [done|]. by exists ho, records, ns0.
  - destruct Hst as [(Hho & Hnd & text & rows & Ht & Hv & Hok & Hs) Ha]. cbn [sf_order sf_csv sf_out sf_days] in *.
    pose proof (pp_only_reads E V ho true tz ns (Path (jb_csv j)) (Path (jb_zones j)) w) as Hq. rewrite Hi in Hq. cbn [fst] in Hq.
    destruct (import_writes _ _ _ _ _ _ _ _ Hi Hq H) as [F1 F2].
    apply (pp_import_reads E V ho tz ns (jb_csv j) (jb_zones j) w es0 ns0 ts text rows db) in Hi; [|apply Hr; set_solver..|done|done|done].
    exists ts. split; [|split; [|done]]; [|intros t; by eapply pp_no_comment]. split; [done|]. by exists ho, rows.
  - destruct Hst as (Hho & Hnd & doc & ls & skip & gs & Hs & Ha & Hl & Hg & Hw). cbn [pf_order pf_tools pf_out pf_days] in *.
    pose proof (pdf_only_reads P (jb_tools j) ho o w) as Hq. rewrite Hi in Hq. cbn [fst] in Hq.
    destruct (import_writes _ _ _ _ _ _ _ _ Hi Hq H) as [F1 F2].
    unfold pdf_importer, io_bind, io_of in Hi. rewrite (shows_document _ _ doc Hho Hs) in Hi.
    destruct (pdf_import P ho o doc) as [[ns' ts']| |] eqn:Ep; [|done..]. unfold io_ret in Hi. cbn in Hi. injection Hi as <- <- <-.
    exists ts'. split; [|split; [|done]]; [|intros t; by eapply pdf_no_comment]. split; [done|]. by exists ho, doc, ns', ls, skip, gs.
Qed.

(** * One statement *)
(** Transactions that are in a file as the merge command reads it. *)
Definition stored (E : env) (w : world) (p : str) (tps : list transaction_postings) : Prop :=
  ∃ text l, w_files w !! p = Some text ∧ e_parse E text = Some l ∧ supported l ∧
    (∀ t, t ∈ ledger_trns l → source_tag (transaction_postings_of t) = None) ∧ tps = transaction_postings_of <$> ledger_trns l.
Lemma stored_same E w w' p tps : w_files w' !! p = w_files w !! p → stored E w p tps → stored E w' p tps.
Proof. intros Hp (text & l & H & H'). exists text, l. by rewrite Hp. Qed.
Lemma stored_import E w p ts : w_files w !! p = Some (e_print E (ledger_from_transactions ts)) → prints_back E ts →
  (∀ t, t ∈ ts → t_comment t = None) → stored E w p (as_merged ts).
Proof.
  intros Hf Hb Hc. exists (e_print E (ledger_from_transactions ts)), (ledger_from_transactions ts). split; [done|]. split; [exact Hb|]. split; [apply ledger_supported|].
  rewrite ledger_trns_of. split; [|done]. intros t Ht. unfold source_tag. specialize (Hc t Ht). destruct t as [c ? ? ? ? ? ?]. change (c = None) in Hc. subst c. done.
Qed.
Lemma stored_ruled E w p ho X T tps J : hash_order_ok ho → w_files w !! p = Some (e_print E (into_ledger ho J)) → is_Some (T !! s2l "start") →
  ruled X T tps J → Forall clean_tp tps → reads_back E J → stored E w p J.
Proof.
  intros Hho Hf Hs HJ Hc [Hb1 Hb2]. exists (e_print E (into_ledger ho J)), (into_ledger ho J). split; [done|]. split; [by apply Hb1|]. split; [apply ledger_supported|].
  assert (transaction_postings_of <$> ledger_trns (into_ledger ho J) = J) as E1.
  { apply from_into_ledger; [done|by eapply ruled_clean|]. intros tp Htp. by apply Hb2. }
  split; [|done]. intros t Ht. apply Hb2. rewrite <- E1. by apply elem_of_list_fmap_1.
Qed.
Lemma job_step E V ho w hs Rs j h es : hash_order_ok ho → history_ok h → rules_there Rs hs → job_ok E V ho w hs j h →
  script E ho (job_commands V Rs hs j) w = (es, Ok tt) →
  ∃ ts J, statement_of (h_account h) (jb_days j) ts ∧ treated (h_rules h) (as_merged ts) J ∧ stored E (steps w es) (job_result hs j) J ∧
    ∀ p, p ∉ job_writes h j → w_files (steps w es) !! p = w_files w !! p.
Proof.
  intros Hho Hok HRs [Ha Hst Hr Hb] H. unfold job_commands, job_result in *. rewrite Ha in *.
  change (import_command V (h_account h) j :: ?l) with ([import_command V (h_account h) j] ++ l) in H.
  apply script_app in H as (es1 & es2 & H1 & H2 & ->). apply script_one in H1. rewrite steps_app.
  destruct (import_step E V ho _ w es1 j H1 Hst) as (ts & S1 & S2 & S3 & S4). { intros p Hp. apply Hr. apply elem_of_app. by left. }
  destruct (Hb ts S1) as [B1 B2]. pose proof (stored_import E _ _ ts S3 B1 S2) as Hs. exists ts.
  unfold rules_commands in H2. unfold job_writes in *. destruct (h_rules h) as [[X T]|] eqn:ER; cbn [treated].
  - apply script_one in H2. cbn [execute] in H2. unfold io_bind in H2.
    destruct (rules_cmd E X _ ho _ _ _ _ _) as [e3 [[[]|]| |]] eqn:Ec; [|done..]. cbn in H2. injection H2 as <-. rewrite app_nil_r.
    destruct (HRs _ h X T Ha ER) as [Hone HT].
    destruct (c58_written E X _ ho _ _ _ _ _ _ Hho Hone Ec) as (J & (T' & tps' & HT' & Hrd & HJ) & Hh & Hsame).
    rewrite (rules_loaded_fun _ _ _ _ HT' HT) in HJ. clear T' HT'.
    assert (journal_read E (steps w es1) (Path (jb_imported j)) (as_merged ts)) as Hrd'.
    { destruct Hs as (text & l & Hf & Hp & Hsu & _ & El). exists l, (steps w es1). split; [|done]. eapply reads_path; [|exact Hf|exact Hp].
      apply Hr. apply elem_of_app. right. left. }
    rewrite (journal_read_fun _ _ _ _ _ Hrd Hrd') in HJ.
    exists J. split; [done|]. split; [exact HJ|]. split.
    + eapply stored_ruled; [exact Hho|exact Hh|apply HT|exact HJ| |by apply (B2 X T)].
      apply Forall_fmap, Forall_forall. intros t _. apply clean_of.
    + intros p [Hp1 Hp2]%not_elem_of_cons. rewrite Hsame by (intros Hx; injection Hx as Hx; apply Hp2, elem_of_list_singleton; by rewrite Hx). by apply S4.
  - cbn [script] in H2. injection H2 as <-. change (steps ?w []) with w. exists (as_merged ts). split; [done|]. split; [done|]. split; [done|].
    intros p [Hp1 Hp2]%not_elem_of_cons. by apply S4.
Qed.

(** * All statements *)
Lemma there_same V ho w w' a j : (∀ p, p ∈ job_reads a j → w_files w' !! p = w_files w !! p) → statement_there V ho w a j → statement_there V ho w' a j.
Proof.
  intros Hs. destruct a as [pd o name rows|tz db ns groups|P o name ds parts]; cbn [statement_there job_reads] in *; [| |done].
  - intros (A1 & A2 & text & records & A3 & A4). split; [done|]. split; [done|]. exists text, records. split; [|done]. cbn [sf_csv] in *. rewrite Hs; [done|left].
  - intros [(A1 & A2 & text & records & A3 & A4) (text' & rows & A5 & A6)]. split.
    + split; [done|]. split; [done|]. exists text, records. split; [|done]. cbn [sf_csv] in *. rewrite Hs; [done|left].
    + exists text', rows. split; [|done]. rewrite Hs; [done|right; left].
Qed.
Lemma year_files E V ho w hs Rs jobs es : hash_order_ok ho → Forall history_ok hs → rules_there Rs hs →
  Forall (λ j, ∃ h, job_ok E V ho w hs j h) jobs → jobs_apart hs jobs →
  script E ho (year_script V Rs hs jobs) w = (es, Ok tt) →
  ∃ inputs, Forall2 (λ j x, in_account x = jb_account j ∧ in_days x = jb_days j ∧ stored E (steps w es) (job_result hs j) (in_trns x)) jobs inputs ∧
    Forall (input_of hs) inputs ∧
    ∀ p, (∀ j h, j ∈ jobs → hs !! jb_account j = Some h → p ∉ job_writes h j) → w_files (steps w es) !! p = w_files w !! p.
Proof.
  intros Hho Hhs HRs. revert w es. induction jobs as [|j jobs IH]; intros w es Hj Hap H.
  { cbn in H. injection H as <-. exists []. split; [constructor|]. split; [constructor|done]. }
  unfold year_script in H. rewrite bind_cons in H. apply script_app in H as (es1 & es2 & H1 & H2 & ->). rewrite steps_app.
  apply Forall_cons in Hj as [[h Hjo] Hj]. pose proof (jo_account _ _ _ _ _ _ _ Hjo) as Ha.
  destruct (job_step E V ho w hs Rs j h es1 Hho) as (ts & J & S1 & S2 & S3 & S4); [by eapply Forall_lookup_1|done..|].
  destruct (IH (steps w es1) es2) as (inputs & I1 & I2 & I3); [| |done|].
  - apply Forall_forall. intros j' Hj'. pose proof (proj1 (Forall_forall _ _) Hj j' Hj') as [h' [A1 A2 A3 A4]]. exists h'. split; [done| |done|done].
    eapply there_same; [|exact A2]. intros p Hp. apply S4. intros Hw. apply elem_of_list_lookup in Hj' as [k Hk].
    by destruct (Hap 0 (S k) j j' h h' p eq_refl Hk Ha A1 Hw).
  - intros i k j1 j2 h1 h2 p Hi Hk Ha1 Ha2 Hw. destruct (Hap (S i) (S k) j1 j2 h1 h2 p Hi Hk Ha1 Ha2 Hw) as [B1 B2]. split; [done|]. intros Hw2. by injection (B2 Hw2).
  - assert (∀ p, p ∈ job_writes h j → w_files (steps (steps w es1) es2) !! p = w_files (steps w es1) !! p) as Hkeep.
    { intros p Hp. apply I3. intros j' h' [k Hk]%elem_of_list_lookup Ha' Hw'.
      destruct (Hap 0 (S k) j j' h h' p eq_refl Hk Ha Ha' Hp) as [_ B]. discriminate (B Hw'). }
    exists (Input (jb_account j) (jb_days j) J :: inputs). split_and!.
    + constructor; [|done]. cbn [in_account in_days in_trns]. split; [done|]. split; [done|]. eapply stored_same; [|exact S3]. apply Hkeep.
      unfold job_result, job_writes. rewrite Ha. destruct (h_rules h); [right; left|left].
    + constructor; [|done]. exists h, ts. done.
    + intros p Hp. rewrite I3; [|intros j' h' Hj'; apply Hp; by right]. apply S4. apply (Hp j h); [left|done].
Qed.
Lemma stored_journals E w hs (jobs : list job) (inputs : list input) : Forall2 (λ j x, f_read E (Path (job_result hs j)) = false ∧ stored E w (job_result hs j) (in_trns x)) jobs inputs →
  journals E w ((λ j, Path (job_result hs j)) <$> jobs) (in_trns <$> inputs) w.
Proof.
  induction 1 as [|j x jobs inputs [Hr (text & l & H1 & H2 & H3 & H4 & H5)] _ IH]; [constructor|]. rewrite !fmap_cons, H5. econstructor; [|done|done|done].
  by eapply reads_path.
Qed.
Lemma same_statements jobs inputs n : Forall2 (λ j x, in_account x = jb_account j ∧ in_days x = jb_days j) jobs inputs →
  statements inputs n = jb_days <$> filter (λ j, jb_account j = n) jobs.
Proof.
  unfold statements. induction 1 as [|j x jobs inputs [E1 E2] _ IH]; [done|]. rewrite !filter_cons, E1. destruct (decide (jb_account j = n)); [|done].
  rewrite !fmap_cons. by f_equal.
Qed.
Lemma inputs_not_alike hs inputs : Forall history_ok hs → Forall (input_of hs) inputs →
  (∀ n h, hs !! n = Some h → covers (statements inputs n) (h_days h)) → accounts_not_alike hs → not_alike inputs.
Proof.
  intros Hhs Hin Hcov Hna.
  assert (∀ x tp, x ∈ inputs → tp ∈ in_trns x → ∃ h J, hs !! in_account x = Some h ∧ own_journal h J ∧ tp ∈ J) as Hown.
  { intros x tp Hx Htp. destruct (proj1 (Forall_forall _ _) Hin x Hx) as (h & ts & Hh & _ & _). exists h.
    destruct (account_brings hs inputs (in_account x) h) as [g [B1 B2 _ _ _]]; [done|done|by eapply Forall_lookup_1|by apply Hcov|].
    exists (h_days h ≫= g). split; [done|]. split; [done|]. destruct (B2 x Hx eq_refl) as [E _]. rewrite E in Htp.
    apply elem_of_list_bind in Htp as (k & Htp & Hk). apply elem_of_list_bind. exists k. split; [done|]. apply (Hcov _ _ Hh). exists (in_days x). split; [|done].
    unfold statements. apply elem_of_list_fmap_1. by apply elem_of_list_filter. }
  intros x y tp tp' p q Hx Hy Hne Htp Htp'. destruct (Hown x tp Hx Htp) as (h & J & Hh & HJ & HtJ), (Hown y tp' Hy Htp') as (h' & J' & Hh' & HJ' & HtJ').
  by apply (Hna (in_account x) (in_account y) h h' J J').
Qed.
Lemma c133 E V Rs ho hs jobs um target w es :
  hash_order_ok ho → Forall history_ok hs → NoDup (h_namespace <$> hs) → accounts_not_alike hs → rules_there Rs hs →
  Forall (λ j, ∃ h, job_ok E V ho w hs j h) jobs → jobs_apart hs jobs → all_days hs jobs →
  script E ho (year_script V Rs hs jobs) w = (es, Ok tt) → (∀ f, um = Some f → writable E f) → writable E (Path target) →
  ∃ Js out es', Forall2 own_journal hs Js ∧ all_in Js out ∧ (∀ tp, tp ∈ out → in_balance tp) ∧
    script E ho (year_script V Rs hs jobs ++ [year_merge hs jobs um target]) w = (es', Ok tt) ∧
    w_files (steps w es') !! target = Some (e_print E (into_ledger ho out)) ∧
    ∀ p, p ≠ target → (∀ j h, j ∈ jobs → hs !! jb_account j = Some h → p ∉ job_writes h j) → same_file w (steps w es') p.
Proof.
  intros Hho Hhs Hnd Hna HRs Hj Hap Hall Hs Hum Ht.
  destruct (year_files E V ho w hs Rs jobs es Hho Hhs HRs Hj Hap Hs) as (inputs & F & Hin & Hsame).
  assert (∀ n h, hs !! n = Some h → covers (statements inputs n) (h_days h)) as Hcov.
  { intros n h Hh. rewrite (same_statements jobs inputs n); [by apply Hall|]. eapply Forall2_impl; [exact F|]. by intros j x (? & ? & _). }
  assert (journals E (steps w es) ((λ j, Path (job_result hs j)) <$> jobs) (in_trns <$> inputs) (steps w es)) as Hjs.
  { apply stored_journals. clear -F Hj. induction F as [|j x jobs inputs (_ & _ & H) F IH]; [constructor|]. apply Forall_cons in Hj as [[h [A1 _ A3 _]] Hj].
    constructor; [|by apply IH]. split; [|done]. apply A3, elem_of_app. right. unfold job_result, job_writes. rewrite A1. destruct (h_rules h); [right; left|left]. }
  destruct (c132_command E ho um (Path target) (steps w es) _ hs inputs Hho Hhs Hnd Hin Hcov (inputs_not_alike _ _ Hhs Hin Hcov Hna) Hjs Hum Ht)
    as (Js & out & es2 & HJs & Hout & Hm & Hh & Hsm).
  exists Js, out, (es ++ es2). split; [done|]. split; [done|]. split; [intros tp; by apply (all_in_balance hs Js)|]. split.
  { apply script_app. exists es, es2. split; [done|]. split; [|done]. apply script_one. exact Hm. }
  rewrite steps_app. split; [exact Hh|]. intros p Hp Hpw. unfold same_file in *. rewrite Hsm by congruence. by apply Hsame.
Qed.
Lemma all_in_asserts hs Js out n h A es start : Forall history_ok hs → Forall2 own_journal hs Js → all_in Js out →
  hs !! n = Some h → bank_says (h_account h) (h_days h) es → adds_up start es →
  (∀ J, own_journal h J → puts_on A (as_merged (h_all h)) J) →
  (∀ i h' J p, i ≠ n → hs !! i = Some h' → own_journal h' J → p ∈ all_posts J → p_account (pi_raw p) ≠ A) →
  assertions_hold A start (all_posts out).
Proof.
  intros Hhs HJs Hout Hh Hsay Ha HA Hother. destruct (Forall2_lookup_l _ _ _ _ _ HJs Hh) as (J & HJ & Hown).
  destruct (Forall_lookup_1 _ _ _ _ Hhs Hh) as [_ _ HR Hall _].
  eapply assertions_on; [|exact (account_asserts (h_rules h) _ _ _ A J es start HR Hall Hsay Ha Hown (HA J Hown))].
  apply (all_in_account A Js out n J Hout HJ). intros i K p Hne HK. destruct (Forall2_lookup_r _ _ _ _ _ HJs HK) as (h' & Hh' & Hown').
  by apply (Hother i h').
Qed.

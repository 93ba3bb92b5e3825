(** Headers and merging (C98), the merge command and merging (C99), importing
    statements to files and merging the files (C100).  The vocabulary is in
    HeaderClaims.v, CmdClaims.v and WorkCmdClaims.v. *)
From Verif Require Import MergeClaims.
From Verif Require Import Base Types SpecBase BaseProofs CommentModel MergeModel CmdModel FingerprintModel NwCsvModel TzModel PaypalModel
  CommentClaims CmdClaims ImportClaims EditClaims WindowClaims StatementClaims CommentExamples MergeExamples ImportExamples TestsImport WorkflowExamples CmdExamples
  OcrModel PdfModel HeaderClaims HeaderLaws CmdPlain ImporterModel WorkCmdClaims WorkCmd WorkCmdExamples.
Local Open Scope nat_scope.

(** C98: merging transactions whose headers differ, the dates excepted, makes the
    same journal of postings, hands back the same ones and fails on the same ones;
    the headers stay related as they were. *)
Theorem C98_headers (R : transaction_internal → transaction_internal → Prop) m m' ho tps tps' :
  (∀ t t', R t t' → t_date (ti_raw t') = t_date (ti_raw t)) →
  alike R m m' → Forall2 (trn_alike R) tps tps' →
  result_alike (Forall2 (trn_alike R)) (merge ho m tps).2 (merge ho m' tps').2 ∧
  result_alike (Forall2 (trn_alike R)) (build ho m) (build ho m').
Proof. intros Hd. exact (c98 R Hd m m' ho tps tps'). Qed.
Print Assumptions C98_headers.
(** Journal and input with every description, status and comment of the transactions blanked. *)
Definition blank (tp : transaction_postings) : transaction_postings :=
  let t := ti_raw (tp_trn tp) in
  TP (TI (Transaction None (t_date t) None None None [] []) comment_new) (tp_posts tp).
Definition same_day (t t' : transaction_internal) : Prop := t_date (ti_raw t') = t_date (ti_raw t).
Lemma blank_alike l : Forall2 (trn_alike same_day) l (blank <$> l).
Proof. induction l as [|tp l IH]; [constructor|]. rewrite fmap_cons. constructor; [|done]. split; reflexivity. Qed.
Example C98_ex : alike same_day ex_m0 (merge default_order merger_new (blank <$> ex_s0)).1 ∧
  Forall2 (trn_alike same_day) ex_s1 (blank <$> ex_s1) ∧ blank <$> ex_s1 ≠ ex_s1 ∧
  (merge default_order (merge default_order merger_new (blank <$> ex_s0)).1 (blank <$> ex_s1)).2 = Ok (blank <$> rok (merge default_order ex_m0 ex_s1).2 []).
Proof.
  split; [|split; [apply blank_alike|split]].
  - apply (alike_merge same_day merger_new merger_new default_order ex_s0); [constructor|apply blank_alike].
  - intros H%(f_equal (map (λ tp, t_description (ti_raw (tp_trn tp))))). revert H. vm_compute. discriminate.
  - vm_compute. reflexivity.
Qed.

(** C99: where the journals in the input files merge, the merge command succeeds
    and writes the merged journal, and hands back what the merging hands back,
    with the file it is from. *)
Theorem C99_command_merges E ho inputs um output w tpss w' un m :
  hash_order_ok ho → journals E w inputs tpss w' →
  merges ho merger_new tpss un m → (un = [] ∨ is_Some um) → (∀ f, um = Some f → writable E f) → writable E output →
  ∃ es un' out, merge_cmd E ho inputs um output w = (es, Ok tt) ∧ build ho m = Ok out ∧ Forall2 unsourced un' un ∧
    let w1 := steps w es in
    (um ≠ Some Stdio ∨ un = [] ∨ output ≠ Stdio → holds w w1 output (e_print E (into_ledger ho out))) ∧
    (∀ f, um = Some f → un ≠ [] → f ≠ output → holds w w1 f (e_print E (into_ledger ho un'))) ∧
    (∀ p, Path p ≠ output → (um = Some (Path p) → un = []) → same_file w w1 p).
Proof. exact (c99_journals E ho inputs um output w tpss w' un m). Qed.
Print Assumptions C99_command_merges.
(** Where they do not, or there is no place for what is handed back, it fails and
    leaves everything as it was. *)
Theorem C99_command_fails E ho inputs um output w tpss w' es r :
  hash_order_ok ho → journals E w inputs tpss w' →
  (∀ un m, ¬ (merges ho merger_new tpss un m ∧ (un = [] ∨ is_Some um))) →
  merge_cmd E ho inputs um output w = (es, r) →
  (∃ e, r = Err e) ∧ ∀ w', crash_world w es w' → untouched w w'.
Proof. exact (c99_journals_failed E ho inputs um output w tpss w' es r). Qed.
Print Assumptions C99_command_fails.
(** Whatever source tags were in the files, they make no difference. *)
Theorem C99_source_tags E ho inputs um output w sets w' plain un m :
  hash_order_ok ho → all_inputs E w inputs sets w' → Forall2 (Forall2 unsourced) sets plain →
  merges ho merger_new plain un m → (un = [] ∨ is_Some um) → (∀ f, um = Some f → writable E f) → writable E output →
  ∃ es un' out, merge_cmd E ho inputs um output w = (es, Ok tt) ∧ build ho m = Ok out ∧ Forall2 unsourced un' un ∧
    let w1 := steps w es in
    (um ≠ Some Stdio ∨ un = [] ∨ output ≠ Stdio → holds w w1 output (e_print E (into_ledger ho out))) ∧
    (∀ f, um = Some f → un ≠ [] → f ≠ output → holds w w1 f (e_print E (into_ledger ho un'))) ∧
    (∀ p, Path p ≠ output → (um = Some (Path p) → un = []) → same_file w w1 p).
Proof. exact (c99_done E ho inputs um output w sets w' plain un m). Qed.
Print Assumptions C99_source_tags.
Definition ex_sets : list (list transaction_postings) := (λ l, transaction_postings_of <$> ledger_trns l) <$> [ex_l1; ex_l2].
Lemma ex_l_ok : Forall (λ l, supported l ∧ ∀ t, t ∈ ledger_trns l → source_tag (transaction_postings_of t) = None) [ex_l1; ex_l2].
Proof.
  assert (∀ l, forallb (λ i, match i with OtherItem => false | _ => true end) l = true →
    Forall (λ t, source_tag (transaction_postings_of t) = None) (ledger_trns l) →
    supported l ∧ ∀ t, t ∈ ledger_trns l → source_tag (transaction_postings_of t) = None) as H.
  { intros l H1 H2. split; [|by apply Forall_forall]. rewrite forallb_forall in H1. intros Hi. by specialize (H1 _ ltac:(by apply elem_of_list_In)). }
  repeat (apply Forall_cons; split; [apply H; [vm_compute; reflexivity|by_compute]|]). done.
Qed.
Lemma ex_journals : journals ex_E ex_w ex_inputs ex_sets ex_w.
Proof.
  pose proof ex_l_ok as H. rewrite !Forall_cons in H. destruct H as ([S1 T1] & [S2 T2] & _).
  unfold ex_inputs, ex_sets. rewrite fmap_cons.
  refine (journals_cons _ _ _ _ ex_w _ _ _ _ S1 T1 _); [|rewrite fmap_cons; refine (journals_cons _ _ _ _ ex_w _ _ _ _ S2 T2 _); [|constructor]].
  - apply (reads_path _ _ _ (s2l "J1")); [done|vm_compute; reflexivity|vm_compute; reflexivity].
  - apply (reads_path _ _ _ (s2l "J2")); [done|vm_compute; reflexivity|vm_compute; reflexivity].
Qed.
(** Two journals, one transaction handed back. *)
Example C99_ex : journals ex_E ex_w ex_inputs ex_sets ex_w ∧ (∀ f, writable ex_E f) ∧
  ∃ un m, merges default_order merger_new ex_sets un m ∧ length un = 1.
Proof.
  split; [exact ex_journals|]. split; [exact ex_writable|].
  eexists (_ ++ _ ++ []), _. split.
  - eapply merges_cons; [vm_compute; reflexivity|]. eapply merges_cons; [vm_compute; reflexivity|]. constructor.
  - vm_compute. reflexivity.
Qed.
(** The same without a file for what is handed back. *)
Example C99_fails_ex : journals ex_E ex_w ex_inputs ex_sets ex_w ∧
  (∀ un m, ¬ (merges default_order merger_new ex_sets un m ∧ (un = [] ∨ is_Some (None : option filespec)))).
Proof.
  split; [exact ex_journals|]. intros un m [Hm Hu].
  destruct C99_ex as (_ & _ & un1 & m1 & Hm1 & Hl).
  assert (un = un1) as ->.
  { clear -Hm Hm1. revert un1 m1 Hm1. induction Hm as [|? ? ? ? ? ? ? E H IH]; intros un1 mm H1; inversion H1; subst; [done|].
    rewrite E in *. simplify_eq. f_equal. by eapply IH. }
  destruct Hu as [->|[? ?]]; [done|done].
Qed.

(** C100: statements of one account, imported to a file each, and the files merged:
    the journal written is that of the one statement with all the days. *)
Theorem C100_nationwide E V pd o name rows ss w tss w' seen ts ho um output :
  parser_ok pd → days rec_date rows → hash_order_ok ho →
  imports E w (nw_run E V pd o <$> ss) tss w' → Forall (nw_file V pd name rows w) ss →
  (∀ s, s ∈ ss → f_read E (Path (sf_csv s)) = false ∧ f_read E (Path (sf_out s)) = false) →
  NoDup (sf_out <$> ss) → (∀ s s', s ∈ ss → s' ∈ ss → sf_csv s ≠ sf_out s') → Forall (prints_back E) tss →
  covers (sf_days <$> ss) seen → nw_statement pd o name rows seen ts → ¬ statement_collides (window rows seen) →
  (∀ f, um = Some f → writable E f) → writable E output →
  ∃ es, merge_cmd E ho (Path ∘ sf_out <$> ss) um output w' = (es, Ok tt) ∧
    holds w' (steps w' es) output (e_print E (into_ledger ho (stable_sort (by_key tp_date) (as_merged ts)))) ∧
    ∀ p, Path p ≠ output → same_file w' (steps w' es) p.
Proof. exact (c100_nationwide E V pd o name rows ss w tss w' seen ts ho um output). Qed.
Print Assumptions C100_nationwide.
Theorem C100_paypal E V tz db ns abbrs groups ss w tss w' seen ts ho um output :
  days (λ g, tz g.1) groups → hash_order_ok ho →
  imports E w (pp_run E V tz ns abbrs <$> ss) tss w' → Forall (pp_file V db groups w) ss →
  abbr_file V db w abbrs → f_read E (Path abbrs) = false → (∀ s, s ∈ ss → abbrs ≠ sf_out s) →
  (∀ s, s ∈ ss → f_read E (Path (sf_csv s)) = false ∧ f_read E (Path (sf_out s)) = false) →
  NoDup (sf_out <$> ss) → (∀ s s', s ∈ ss → s' ∈ ss → sf_csv s ≠ sf_out s') → Forall (prints_back E) tss →
  covers (sf_days <$> ss) seen → pp_statement tz db ns groups seen ts → NoDup (window groups seen).*1 → ¬ groups_collide (window groups seen) →
  (∀ f, um = Some f → writable E f) → writable E output →
  ∃ es, merge_cmd E ho (Path ∘ sf_out <$> ss) um output w' = (es, Ok tt) ∧
    holds w' (steps w' es) output (e_print E (into_ledger ho (stable_sort (by_key tp_date) (as_merged ts)))) ∧
    ∀ p, Path p ≠ output → same_file w' (steps w' es) p.
Proof. exact (c100_paypal E V tz db ns abbrs groups ss w tss w' seen ts ho um output). Qed.
Print Assumptions C100_paypal.
(** Three days in two statements that overlap, with two equal payments on the
    first day; and what the command writes. *)
Example C100_ex : imports wc_env wc_w (nw_run wc_env wc_V ex_dates ex_opts <$> wc_ss) wc_nw
    (run_all wc_w (nw_run wc_env wc_V ex_dates ex_opts <$> wc_ss)) ∧
  Forall (nw_file wc_V ex_dates (s2l "Current") wd_days wc_w) wc_ss ∧ Forall (prints_back wc_env) wc_nw ∧
  days rec_date wd_days ∧ covers (sf_days <$> wc_ss) [0; 1; 2] ∧
  nw_statement ex_dates ex_opts (s2l "Current") wd_days [0; 1; 2] (wd_import [0; 1; 2]) ∧ ¬ statement_collides (window wd_days [0; 1; 2]) ∧
  let w' := run_all wc_w (nw_run wc_env wc_V ex_dates ex_opts <$> wc_ss) in
  let run := merge_cmd wc_env default_order (Path ∘ sf_out <$> wc_ss) None (Path (s2l "out")) w' in
  (w_files w' !! s2l "a", w_files w' !! s2l "b", w_files (steps w' run.1) !! s2l "out") = (Some (s2l "A"), Some (s2l "B"), Some (s2l "AB")).
Proof.
  split; [exact wc_imports|]. split; [exact wc_files|]. split; [apply wc_prints|]. split; [exact wd_days_ok|]. split; [exact wd_covers|].
  split; [exact wd_012|]. split; [exact wd_no_collision|]. vm_compute. reflexivity.
Qed.
Example C100_paypal_ex : imports wc_env wc_w (pp_run wc_env wc_V test_tz (s2l "paypal") (s2l "zones.csv") <$> wc_ps) wc_pp
    (run_all wc_w (pp_run wc_env wc_V test_tz (s2l "paypal") (s2l "zones.csv") <$> wc_ps)) ∧
  Forall (pp_file wc_V ex_db pd_groups wc_w) wc_ps ∧ abbr_file wc_V ex_db wc_w (s2l "zones.csv") ∧ Forall (prints_back wc_env) wc_pp ∧
  days (λ g, test_tz g.1) pd_groups ∧ covers (sf_days <$> wc_ps) [0; 1] ∧
  pp_statement test_tz ex_db (s2l "paypal") pd_groups [0; 1] (pd_import [0; 1]) ∧
  NoDup (window pd_groups [0; 1]).*1 ∧ ¬ groups_collide (window pd_groups [0; 1]) ∧
  let w' := run_all wc_w (pp_run wc_env wc_V test_tz (s2l "paypal") (s2l "zones.csv") <$> wc_ps) in
  let run := merge_cmd wc_env default_order (Path ∘ sf_out <$> wc_ps) None (Path (s2l "out")) w' in
  w_files (steps w' run.1) !! s2l "out" = Some (s2l "CD").
Proof.
  split; [exact wc_pp_imports|]. split; [exact wc_pp_files|]. split; [exact wc_abbrs|]. split; [apply wc_prints|]. split; [exact pd_days|].
  split; [apply covers_check; by_compute|]. split; [apply pd_one; by_compute|]. destruct pd_no_collision as [H1 H2]. split; [exact H1|]. split; [exact H2|].
  vm_compute. reflexivity.
Qed.

(** C67: the importers only read, whatever happens, as its theorems suppose. *)
Theorem C67_importers_only_read E V w :
  (∀ pd ho o f, only_reads (nw_importer E V pd ho o f w).1) ∧
  (∀ ho legacy tz ns f a, only_reads (pp_importer E V ho legacy tz ns f a w).1) ∧
  (∀ X T ho o, only_reads (pdf_importer X T ho o w).1).
Proof. split; [|split]; intros; [apply nw_only_reads|apply pp_only_reads|apply pdf_only_reads]. Qed.
Print Assumptions C67_importers_only_read.

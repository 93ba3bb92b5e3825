(** The statements of C132 in files, for the example beside C133. *)
From Verif Require Import MergeClaims.
From stdpp Require Import gmap list.
From Verif Require Import Base Types SpecBase BaseProofs CommentModel MergeModel CmdModel Sha1 FingerprintModel NwCsvModel TzModel PaypalModel
  CommentClaims FingerprintClaims CmdClaims ImportClaims ImportLaws EditClaims WindowClaims StatementClaims CommentExamples MergeExamples ImportExamples TestsImport WorkflowExamples CmdExamples
  MergeLemmas ImportProofs ImportRows ImportDays SameFpExamples OcrModel PdfModel PdfClaims PdfDaysClaims NsUseClaims
  RulesModel RulesClaims RulesProofs RulesLaws RulesLoad RulesCmd RulesExamples CmdIdem HeaderClaims ImporterModel ImporterExamples WorkCmdClaims PdfWorkClaims PipeClaims Pipe PipeExamples
  AssertClaims Assert AssertExamples ScriptClaims AccountsClaims AccountsExamples YearClaims.
From Coq Require Import Lia.
Local Open Scope nat_scope.

(** Rules are applied to the second statement of the current account in place. *)
Definition yr_jobs : list job :=
  let j n ds csv imp res := Job n ds (s2l csv) [] (ex_tools 0) (s2l imp) (s2l res) in
  [j 0 [0; 1] "1.csv" "a" "ra"; j 1 [0; 1] "3.csv" "s1" ""; j 0 [2; 1] "2.csv" "b" "b"; j 1 [1] "4.csv" "s2" ""]%string.
Definition yr_Rs (n : nat) : rules_file := RulesFile ab_F (s2l "/r") 7.
Definition yr_out : list transaction_postings := rok (build default_order ac_m) [].
Definition yr_codec : codec :=
  [(s2l "A", ledger_from_transactions (ab_import [0; 1])); (s2l "B", ledger_from_transactions (ab_import [2; 1]));
   (s2l "RA", into_ledger default_order (ab_J (ab_import [0; 1]))); (s2l "RB", into_ledger default_order (ab_J (ab_import [2; 1])));
   (s2l "S1", ledger_from_transactions (sv_import [0; 1])); (s2l "S2", ledger_from_transactions (sv_import [1]));
   (s2l "ALL", into_ledger default_order yr_out)].
Definition yr_E : env := ex_env yr_codec.
Definition yr_V : csv_env := CsvEnv
  (λ t, if str_eqb t (s2l "csv1") then Some (six_head ++ window ab_rows [0; 1])
        else if str_eqb t (s2l "csv2") then Some (six_head ++ window ab_rows [2; 1])
        else if str_eqb t (s2l "csv3") then Some (six_head ++ window sv_rows [0; 1])
        else if str_eqb t (s2l "csv4") then Some (six_head ++ window sv_rows [1]) else None)
  (λ t, None) (λ t, None).
Definition yr_w : world :=
  World {[ s2l "1.csv" := s2l "csv1"; s2l "2.csv" := s2l "csv2"; s2l "3.csv" := s2l "csv3"; s2l "4.csv" := s2l "csv4"; s2l "a" := s2l "OLD" ]} ∅ [] [].

Lemma nw_statement_fun pd o name rows w ts ts' : nw_statement pd o name rows w ts → nw_statement pd o name rows w ts' → ts = ts'.
Proof.
  intros (_ & ho & recs & ns & Hho & _ & Hs & Hi) (_ & ho' & recs' & ns' & Hho' & _ & Hs' & Hi').
  apply import_reads in Hi as (n1 & r1 & H1 & N1 & G1), Hi' as (n2 & r2 & H2 & N2 & G2).
  destruct (statement_fun _ _ _ _ _ _ Hs H1) as [<- <-], (statement_fun _ _ _ _ _ _ Hs' H2) as [<- <-].
  rewrite N1 in N2. apply Ok_inj in N2 as <-. by eapply (rows_give_fun ho ho').
Qed.
Lemma yr_file ho text w rows days csv out : hash_order_ok ho → NoDup w → w_files yr_w !! csv = Some text →
  ce_nationwide yr_V text = Some (six_head ++ window rows w) → forallb (λ r, forallb field_okb r) (six_head ++ window rows w) = true →
  rmapM (λ r, rmap Six (de_six ex_dates r)) (window rows w) = Ok (window days w) →
  nw_file yr_V ex_dates (s2l "Current") days yr_w (StatementFile ho csv out w).
Proof.
  intros Hho Hnd Ht Hv Hf Hr. split; [exact Hho|]. split; [exact Hnd|]. exists text, (six_head ++ window rows w).
  split; [exact Ht|]. split; [exact Hv|]. split; [by apply fields_ok_check|]. by apply six_statement.
Qed.
Lemma yr_back (J : list transaction_postings) : e_parse yr_E (e_print yr_E (into_ledger default_order J)) = Some (into_ledger default_order J) →
  Forall comments_writable_b J → Forall (λ tp, source_tag tp = None) J → reads_back yr_E J.
Proof.
  intros H1 H2 H3. split.
  - intros ho Hho. by rewrite (into_ledger_order ho default_order _ Hho default_order_ok).
  - intros tp Htp. split; [by apply (writable_compute J)|]. rewrite Forall_forall in H3. by apply H3.
Qed.
Lemma yr_cur_prints j : statement_of (h_account ac_cur) (jb_days j) (ab_import (jb_days j)) → prints_back yr_E (ab_import (jb_days j)) →
  update_transactions rx_X default_order ab_loaded_T 7 (as_merged (ab_import (jb_days j))) = Some (Ok (ab_J (ab_import (jb_days j)))) →
  reads_back yr_E (ab_J (ab_import (jb_days j))) → reads_back_all yr_E ac_cur j.
Proof.
  intros H1 H2 H3 H4 ts Hts. assert (ts = ab_import (jb_days j)) as ->.
  { by apply (nw_statement_fun ex_dates (six_opts false) (s2l "Current") ab_days (jb_days j)). }
  split; [exact H2|]. intros X T J HR HJ. cbn [ac_cur h_rules] in HR. assert (X = rx_X ∧ T = ab_loaded_T) as [-> ->] by (by split; congruence).
  by rewrite (ab_ruled_is _ _ H3 HJ).
Qed.
Lemma yr_sav_prints j : jb_days j ∈ [[0; 1]; [1]; [2]] → prints_back yr_E (sv_import (jb_days j)) → reads_back_all yr_E (ac_sav [0; 1]) j.
Proof.
  intros H1 H2 ts Hts. assert (ts = sv_import (jb_days j)) as ->.
  { apply (nw_statement_fun ex_dates sv_opts (s2l "Current") sv_days (jb_days j)); [exact Hts|]. exact (sv_one _ H1). }
  split; [exact H2|]. intros X T J HR. discriminate HR.
Qed.
Lemma yr_ok : Forall (λ j, ∃ h, job_ok yr_E yr_V default_order yr_w ac_hs j h) yr_jobs.
Proof.
  apply Forall_cons. split; [|apply Forall_cons; split; [|apply Forall_cons; split; [|apply Forall_singleton]]].
  - exists ac_cur. split; [reflexivity| |intros p _; reflexivity|].
    + apply (yr_file default_order (s2l "csv1") [0; 1] ab_rows); [exact default_order_ok|by_compute|vm_compute; reflexivity..].
    + apply yr_cur_prints; [exact ab_01|vm_compute; reflexivity|vm_compute; reflexivity|]. apply yr_back; [vm_compute; reflexivity|by_compute|by_compute].
  - exists (ac_sav [0; 1]). split; [reflexivity| |intros p _; reflexivity|].
    + apply (yr_file default_order (s2l "csv3") [0; 1] sv_rows); [exact default_order_ok|by_compute|vm_compute; reflexivity..].
    + apply yr_sav_prints; [left|vm_compute; reflexivity].
  - exists ac_cur. split; [reflexivity| |intros p _; reflexivity|].
    + apply (yr_file default_order (s2l "csv2") [2; 1] ab_rows); [exact default_order_ok|by_compute|vm_compute; reflexivity..].
    + apply yr_cur_prints; [exact ab_21|vm_compute; reflexivity|vm_compute; reflexivity|]. apply yr_back; [vm_compute; reflexivity|by_compute|by_compute].
  - exists (ac_sav [0; 1]). split; [reflexivity| |intros p _; reflexivity|].
    + apply (yr_file default_order (s2l "csv4") [1] sv_rows); [exact default_order_ok|by_compute|vm_compute; reflexivity..].
    + apply yr_sav_prints; [right; left|vm_compute; reflexivity].
Qed.
Definition apartb (hs : list history) (jobs : list job) : bool :=
  forallb (λ ij : nat * job, forallb (λ kj : nat * job,
    match hs !! jb_account ij.2, hs !! jb_account kj.2 with
    | Some h, Some h' => forallb (λ p, negb (bool_decide (p ∈ job_reads (h_account h') kj.2)) && (Nat.eqb ij.1 kj.1 || negb (bool_decide (p ∈ job_writes h' kj.2)))) (job_writes h ij.2)
    | _, _ => true end) (imap pair jobs)) (imap pair jobs).
Lemma apart_check hs jobs : apartb hs jobs = true → jobs_apart hs jobs.
Proof.
  unfold apartb. intros H i k j j' h h' p Hi Hk Hh Hh' Hp. rewrite forallb_forall in H.
  specialize (H (i, j) ltac:(apply elem_of_list_In, elem_of_lookup_imap; by exists i, j)). cbv beta in H. rewrite forallb_forall in H.
  specialize (H (k, j') ltac:(apply elem_of_list_In, elem_of_lookup_imap; by exists k, j')). cbn [fst snd] in H. rewrite Hh, Hh' in H.
  rewrite forallb_forall in H. specialize (H p ltac:(by apply elem_of_list_In)). apply andb_true_iff in H as [H1 H2].
  apply negb_true_iff, bool_decide_eq_false in H1. split; [done|]. intros Hw. apply orb_true_iff in H2 as [H2%Nat.eqb_eq|H2]; [done|].
  by apply negb_true_iff, bool_decide_eq_false in H2.
Qed.
Lemma yr_apart : jobs_apart ac_hs yr_jobs.
Proof. apply apart_check. vm_compute. reflexivity. Qed.
Lemma yr_all_days : all_days ac_hs yr_jobs.
Proof.
  intros n h Hh. destruct n as [|[|n]]; [injection Hh as <-..|done].
  - change (covers [[0; 1]; [2; 1]] [0; 1; 2]). exact ab_covers.
  - change (covers [[0; 1]; [1]] [0; 1]). apply covers_check; by_compute.
Qed.
Lemma yr_rules : rules_there yr_Rs ac_hs.
Proof.
  intros n h X T Hh HR. destruct n as [|[|n]]; [injection Hh as <-..|done]; [|discriminate HR].
  cbn [ac_cur h_rules] in HR. assert (T = ab_loaded_T) as -> by congruence. exact (conj ab_one ab_loaded).
Qed.
Lemma yr_not_alike : accounts_not_alike ac_hs.
Proof.
  assert (∀ J, own_journal ac_cur J → J = ab_J (ab_import [0; 1; 2])) as H0.
  { intros J HJ. apply ab_ruled_is; [vm_compute; reflexivity|exact HJ]. }
  assert (∀ J, own_journal (ac_sav [0; 1]) J → J = as_merged (sv_import [0; 1])) as H1 by (intros J HJ; exact HJ).
  assert (not_alike [Input 0 [] (ab_J (ab_import [0; 1; 2])); Input 1 [] (as_merged (sv_import [0; 1]))]) as Hn by (apply not_alike_check; vm_compute; reflexivity).
  intros n n' h h' J J' tp tp' p q Hne Hh Hh' HJ HJ' Htp Htp'.
  destruct n as [|[|n]]; [| |discriminate Hh]; destruct n' as [|[|n']]; try done; injection Hh as <-; injection Hh' as <-.
  - apply H0 in HJ as ->. apply H1 in HJ' as ->. eapply Hn; [left|right; left|cbn; lia|exact Htp|exact Htp'].
  - apply H1 in HJ as ->. apply H0 in HJ' as ->. eapply Hn; [right; left|left|cbn; lia|exact Htp|exact Htp'].
Qed.
Lemma yr_runs : (script yr_E default_order (year_script yr_V yr_Rs ac_hs yr_jobs) yr_w).2 = Ok tt.
Proof. vm_compute. reflexivity. Qed.
Lemma yr_result : let es := (script yr_E default_order (year_script yr_V yr_Rs ac_hs yr_jobs ++ [year_merge ac_hs yr_jobs None (s2l "journal")]) yr_w).1 in
  w_files (steps yr_w es) !! s2l "journal" = Some (s2l "ALL").
Proof. vm_compute. reflexivity. Qed.

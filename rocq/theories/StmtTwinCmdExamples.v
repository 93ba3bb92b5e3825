(** Instances for C113_command: the statements of StmtTwinExamples.v in files. *)
From stdpp Require Import gmap list.
From Verif Require Import MergeClaims.
From Verif Require Import Base Types SpecBase BaseProofs CommentModel MergeModel CmdModel FingerprintModel NwCsvModel PaypalModel
  CommentClaims CmdClaims FingerprintClaims ImportClaims OcrModel OcrClaims OcrProofs PdfModel PdfClaims PdfFold PdfExamples PiecesClaims
  CommentExamples MergeExamples ImportExamples TestsImport WorkflowExamples CmdExamples TwinClaims StmtTwinClaims StmtTwinExamples
  ImporterModel ImporterClaims ImporterLaws ImporterExamples WorkCmdClaims PdfWorkClaims PdfWorkExamples StmtTwinCmdClaims.
Local Open Scope nat_scope.

Definition tc_env : env := ex_env [(s2l "A", ledger_from_transactions st_ts); (s2l "B", ledger_from_transactions st_ts')].
Definition tc_V : csv_env := CsvEnv (λ t, if str_eqb t (s2l "csv1") then Some (ex_head ++ st_rows) else None) (λ _, None) (λ _, None).
Definition tc_w : world := World {[ s2l "1.csv" := s2l "csv1"; s2l "a" := s2l "OLD" ]} ∅ [] [].
Definition tc_nw : io import * str := (nw_importer tc_env tc_V ex_dates default_order ex_opts (Path (s2l "1.csv")), s2l "a").
Definition tc_pdf : io import * str := (pdf_importer st_env (pw_tools st_doc) default_order ex_cur, s2l "b").
Definition tc_run (w : world) (r : io import * str) : world := steps w (import_cmd tc_env r.1 (Path r.2) false false w).1.
Lemma tc_runs w r ts : (match r.1 w, import_cmd tc_env r.1 (Path r.2) false false w with
  | (_, Ok i), (_, Ok _) => bool_decide (im_transactions i = ts) | _, _ => false end) = true →
  ∃ es ns es', r.1 w = (es, Ok (Import ns ts)) ∧ import_cmd tc_env r.1 (Path r.2) false false w = (es', Ok tt) ∧ tc_run w r = steps w es'.
Proof.
  unfold tc_run. destruct (r.1 w) as [es0 [[ns ts0]|e|]] eqn:E1; [|discriminate..].
  destruct (import_cmd tc_env r.1 (Path r.2) false false w) as [es [[]|e|]] eqn:E2; [|discriminate..].
  intros H%bool_decide_eq_true. cbn [im_transactions] in H. subst ts0. exists es0, ns, es. exact (conj eq_refl (conj eq_refl (f_equal (λ x, steps w x.1) E2))).
Qed.
Lemma tc_two w r1 r2 ts1 ts2 :
  (match r1.1 w, import_cmd tc_env r1.1 (Path r1.2) false false w with
  | (_, Ok i), (_, Ok _) => bool_decide (im_transactions i = ts1) | _, _ => false end) = true →
  (match r2.1 (tc_run w r1), import_cmd tc_env r2.1 (Path r2.2) false false (tc_run w r1) with
  | (_, Ok i), (_, Ok _) => bool_decide (im_transactions i = ts2) | _, _ => false end) = true →
  imports tc_env w [r1; r2] [ts1; ts2] (tc_run (tc_run w r1) r2).
Proof.
  intros (es & ns & es' & A & B & C)%tc_runs (es2 & ns2 & es2' & A2 & B2 & C2)%tc_runs. rewrite C2. destruct r1 as [i1 o1], r2 as [i2 o2].
  econstructor; [exact A|exact B|]. rewrite <- C. econstructor; [exact A2|exact B2|]. constructor.
Qed.
Lemma tc_imports : imports tc_env tc_w [tc_nw; tc_pdf] [st_ts; st_ts'] (tc_run (tc_run tc_w tc_nw) tc_pdf).
Proof. apply tc_two; vm_compute; reflexivity. Qed.
Lemma tc_imports2 : imports tc_env tc_w [tc_pdf; tc_nw] [st_ts'; st_ts] (tc_run (tc_run tc_w tc_pdf) tc_nw).
Proof. apply tc_two; vm_compute; reflexivity. Qed.
Lemma tc_csv : csv_statement tc_V ex_dates tc_w (s2l "1.csv") (ex_head ++ st_rows).
Proof.
  exists (s2l "csv1"), (s2l "Current"), st_records. split; [vm_compute; reflexivity|]. split; [vm_compute; reflexivity|]. split; [exact ex_dates_ok|].
  split; [exact st_fields|]. split; [exact st_reads|]. split; [exact st_contiguous|exact st_no_collision].
Qed.
Lemma tc_shown : pdf_shown st_env (pw_tools st_doc) st_doc st_ts'.
Proof.
  split; [|split; [exact st_env_ok|split; [exact st_texts|]]].
  - apply pw_shows; [apply well_numbered_check; vm_compute; reflexivity|apply Nat.leb_le; vm_compute; reflexivity|vm_compute; reflexivity].
  - exists st_lines, (group_up st_lines).1, st_groups. split; [exact st_lines_ok|]. split; [exact (group_up_spec st_lines)|]. split; [exact st_together|exact st_pdf_no_collision].
Qed.
Lemma tc_prints : prints_back tc_env st_ts ∧ prints_back tc_env st_ts'.
Proof. refine (conj _ _); vm_compute; reflexivity. Qed.

(** Importing statements into files and merging the files. *)
From Verif Require Import MergeClaims.
From Verif Require Import Base Types SpecBase BaseProofs CommentModel MergeModel CmdModel FingerprintModel NwCsvModel TzModel PaypalModel OcrModel PdfModel
  CommentClaims CommentLaws CmdClaims CmdProofs CmdMerge CmdFp ImportClaims ImportProofs ImportRows ImportLaws EditClaims WindowClaims StatementClaims
  MergeDays ImportDays PaypalDays HeaderClaims CmdPlain ImporterModel WorkCmdClaims.
Local Open Scope nat_scope.

(** * Importers only read *)
Lemma bind_only_reads {A B} (m : io A) (k : A → io B) : (∀ w, only_reads (m w).1) → (∀ a w, only_reads (k a w).1) → ∀ w, only_reads (io_bind m k w).1.
Proof.
  intros Hm Hk w. unfold io_bind. specialize (Hm w). destruct (m w) as [es [a| |]]; cbn [fst] in *; [|done..].
  specialize (Hk a (steps w es)). destruct (k a (steps w es)) as [es' r]. cbn [fst] in *. by apply Forall_app.
Qed.
Lemma read_only_reads E f w : only_reads (read_file E f w).1.
Proof. unfold read_file. destruct (f_read E f); [constructor|]. destruct f as [|p]; [by repeat constructor|]. destruct (w_files w !! p); constructor. Qed.
Lemma of_only_reads {A} (r : result A) w : only_reads (io_of r w).1.
Proof. constructor. Qed.
Lemma ret_only_reads {A} (a : A) w : only_reads (io_ret a w).1.
Proof. constructor. Qed.
Lemma nw_only_reads E V pd ho o f w : only_reads (nw_importer E V pd ho o f w).1.
Proof.
  revert w. unfold nw_importer. apply bind_only_reads; [apply read_only_reads|]. intros text. apply bind_only_reads; [apply of_only_reads|]. intros rows.
  apply bind_only_reads; [apply of_only_reads|]. intros [ns ts]. apply ret_only_reads.
Qed.
Lemma pp_only_reads E V ho legacy tz ns f a w : only_reads (pp_importer E V ho legacy tz ns f a w).1.
Proof.
  revert w. unfold pp_importer. apply bind_only_reads; [apply read_only_reads|]. intros text. apply bind_only_reads; [apply read_only_reads|]. intros at'.
  apply bind_only_reads; [apply of_only_reads|]. intros ar. apply bind_only_reads; [apply of_only_reads|]. intros db.
  apply bind_only_reads; [apply of_only_reads|]. intros rows. apply bind_only_reads; [apply of_only_reads|]. intros ts. apply ret_only_reads.
Qed.
Lemma pdf_only_reads X T ho o w : only_reads (pdf_importer X T ho o w).1.
Proof.
  revert w. unfold pdf_importer. apply bind_only_reads; [apply of_only_reads|]. intros doc. apply bind_only_reads; [apply of_only_reads|]. intros [ns ts]. apply ret_only_reads.
Qed.

(** * The files after the imports *)
Lemma import_writes E imp out w es ns ts es' : imp w = (es, Ok (Import ns ts)) → only_reads es →
  import_cmd E imp (Path out) false false w = (es', Ok tt) →
  w_files (steps w es') !! out = Some (e_print E (ledger_from_transactions ts)) ∧ ∀ p, p ≠ out → w_files (steps w es') !! p = w_files w !! p.
Proof.
  intros Hi Hq Hr. destruct (c67_path E imp (Path out) false false w es (Import ns ts) (Path out)) as (es2 & r & E2 & H1 & _ & H3); try done.
  rewrite Hr in E2. injection E2 as <- <-. destruct (H1 eq_refl) as [H1' _]. split; [done|]. intros p Hp.
  destruct (H3 (steps w es') (crash_self _ _)) as [H3' _]. apply H3'. congruence.
Qed.
Lemma imports_files E w runs tss w' : imports E w runs tss w' → Forall (λ r, ∀ w, only_reads (r.1 w).1) runs → NoDup runs.*2 →
  Forall2 (λ r ts, w_files w' !! r.2 = Some (e_print E (ledger_from_transactions ts))) runs tss ∧
  ∀ p, p ∉ runs.*2 → w_files w' !! p = w_files w !! p.
Proof.
  induction 1 as [w|w imp out es ns ts es' runs tss w' Hi Hc H IH]; intros Hq Hnd; [split; [constructor|done]|].
  rewrite Forall_cons in Hq. destruct Hq as [Hq1 Hq]. rewrite fmap_cons, NoDup_cons in Hnd. cbn [fst snd] in *. destruct Hnd as [Hn Hnd].
  destruct (IH Hq Hnd) as [H1 H2]. specialize (Hq1 w). rewrite Hi in Hq1. cbn [fst] in Hq1.
  destruct (import_writes E imp out w es ns ts es' Hi Hq1 Hc) as [F1 F2]. split.
  - constructor; [|done]. cbn [snd]. by rewrite H2.
  - intros p [Hp1 Hp2]%not_elem_of_cons. by rewrite H2, F2.
Qed.
Lemma imports_journals E w runs tss w' fs : imports E w runs tss w' → Forall (λ r, ∀ w, only_reads (r.1 w).1) runs → NoDup runs.*2 →
  (∀ p, p ∈ runs.*2 → f_read E (Path p) = false) → Forall (prints_back E) tss → (∀ ts t, ts ∈ tss → t ∈ ts → t_comment t = None) →
  fs = Path <$> runs.*2 → journals E w' fs (as_merged <$> tss) w'.
Proof.
  intros H Hq Hnd Hr Hb Hc ->. destruct (imports_files _ _ _ _ _ H Hq Hnd) as [Hf _]. clear -Hf Hr Hb Hc.
  induction Hf as [|[imp out] ts runs tss Hf0 Hf IH]; [constructor|]. rewrite Forall_cons in Hb. destruct Hb as [Hb0 Hb]. cbn [snd] in Hf0.
  rewrite !fmap_cons. assert (as_merged ts = transaction_postings_of <$> ledger_trns (ledger_from_transactions ts)) as -> by (by rewrite ledger_trns_of).
  econstructor.
  - eapply reads_path; [apply Hr; rewrite fmap_cons; left|exact Hf0|exact Hb0].
  - apply ledger_supported.
  - rewrite ledger_trns_of. intros t Ht. unfold source_tag. specialize (Hc ts t (elem_of_list_here _ _) Ht). destruct t as [c ? ? ? ? ? ?]. change (c = None) in Hc. subst c. done.
  - apply IH; [intros p Hp; apply Hr; rewrite fmap_cons; by right|done|]. intros ts' t Hts. apply Hc. by right.
Qed.
Lemma clean_merges ho m runs m' : clean_run m runs m' → Forall (λ r, r.1 = ho) runs → merges ho m runs.*2 [] m'.
Proof.
  induction 1 as [m|m ho' s m1 runs m2 Hho Hm H IH]; intros Hf; [constructor|]. rewrite Forall_cons in Hf. destruct Hf as [E Hf]. simpl in E. rewrite E in *.
  rewrite fmap_cons. change (@nil transaction_postings) with ([] ++ @nil transaction_postings). econstructor; [exact Hm|]. by apply IH.
Qed.
Lemma merge_imported E ho um output w runs tss w' m out :
  hash_order_ok ho → imports E w runs tss w' → Forall (λ r, ∀ w, only_reads (r.1 w).1) runs → NoDup runs.*2 →
  (∀ p, p ∈ runs.*2 → f_read E (Path p) = false) → Forall (prints_back E) tss → (∀ ts t, ts ∈ tss → t ∈ ts → t_comment t = None) →
  clean_run merger_new (zip (replicate (length tss) ho) (as_merged <$> tss)) m → build ho m = Ok out →
  (∀ f, um = Some f → writable E f) → writable E output →
  ∃ es, merge_cmd E ho (Path <$> runs.*2) um output w' = (es, Ok tt) ∧
    holds w' (steps w' es) output (e_print E (into_ledger ho out)) ∧ ∀ p, Path p ≠ output → same_file w' (steps w' es) p.
Proof.
  intros Hho Hi Hq Hnd Hr Hb Hc Hm Hbuild Hum Hout.
  assert (Hj := imports_journals E w runs tss w' _ Hi Hq Hnd Hr Hb Hc eq_refl).
  apply (clean_merges ho) in Hm.
  2:{ apply Forall_forall. intros [h s] Hin. apply elem_of_zip_l in Hin. by apply elem_of_replicate_inv in Hin. }
  rewrite snd_zip in Hm by (by rewrite replicate_length, fmap_length).
  destruct (c99_journals E ho _ um output w' _ w' [] m Hho Hj Hm (or_introl eq_refl) Hum Hout) as (es & un' & out' & Hes & Hb' & _ & H1 & _ & H3).
  assert (out' = out) as -> by congruence. exists es. split; [done|]. split; [apply H1; auto|]. intros p Hp. by apply H3.
Qed.

(** * Nationwide *)
Lemma nw_import_reads E V pd ho o f w es ns ts text records : f_read E (Path f) = false →
  w_files w !! f = Some text → ce_nationwide V text = Some records →
  nw_importer E V pd ho o (Path f) w = (es, Ok (Import ns ts)) → nw_csv_import pd ho o records = Ok (ns, ts).
Proof.
  intros Hr Hf Hv. unfold nw_importer, io_bind, read_file, io_of. rewrite Hr, Hf, Hv. cbn [some_or].
  destruct (nw_csv_import pd ho o records) as [[ns' ts']| |]; [|done..]. unfold io_ret. cbn. by intros [= _ <- <-].
Qed.
Lemma nw_no_comment pd ho o records ns ts t : nw_csv_import pd ho o records = Ok (ns, ts) → t ∈ ts → t_comment t = None.
Proof.
  intros (name & rs & _ & _ & H)%import_reads. generalize dependent (@nil date). revert ts. induction rs as [|r rs IH]; intros [|t' ts] h; cbn [rows_give]; try done.
  - intros _ Ht. by apply elem_of_nil in Ht.
  - intros [(p1 & p2 & _ & _ & ->) H] [->|Ht]%elem_of_cons; [done|]. by eapply IH.
Qed.
Lemma nw_runs_out E V pd o ss : (nw_run E V pd o <$> ss).*2 = sf_out <$> ss.
Proof. rewrite <- list_fmap_compose. done. Qed.
Lemma nw_imports E V pd o name rows ss w tss w' : imports E w (nw_run E V pd o <$> ss) tss w' → NoDup (sf_out <$> ss) →
  Forall (nw_file V pd name rows w) ss → (∀ s, s ∈ ss → f_read E (Path (sf_csv s)) = false) → (∀ s s', s ∈ ss → s' ∈ ss → sf_csv s ≠ sf_out s') →
  Forall2 (nw_statement pd o name rows) (sf_days <$> ss) tss ∧ ∀ ts t, ts ∈ tss → t ∈ ts → t_comment t = None.
Proof.
  revert w tss. induction ss as [|s ss IH]; intros w tss Hi Hnd Hf Hr Hd; inversion Hi as [|? imp out es ns ts es' runs' tss' w2 H1 H2 H3]; subst.
  { split; [constructor|]. intros ts t Ht. by apply elem_of_nil in Ht. }
  rewrite Forall_cons in Hf. destruct Hf as [(Hho & Hndd & text & records & Ht & Hv & Hok & Hs) Hf].
  rewrite fmap_cons, NoDup_cons in Hnd. destruct Hnd as [Hn Hnd].
  pose proof (nw_only_reads E V pd (sf_order s) o (Path (sf_csv s)) w) as Hq. rewrite H1 in Hq. cbn [fst] in Hq.
  destruct (import_writes _ _ _ _ _ _ _ _ H1 Hq H2) as [F1 F2].
  apply (nw_import_reads E V pd (sf_order s) o (sf_csv s) w es ns ts text records) in H1; [|apply Hr; left|done|done].
  destruct (IH (steps w es') tss' H3 Hnd) as [I1 I2].
  - apply Forall_forall. intros s' Hs'. rewrite Forall_forall in Hf. destruct (Hf s' Hs') as (A1 & A2 & text' & records' & A3 & A4).
    split; [done|]. split; [done|]. exists text', records'. split; [|done]. rewrite F2; [done|]. apply Hd; [by right|left].
  - intros s' Hs'. apply Hr. by right.
  - intros s1 s2 Hs1 Hs2. apply Hd; by right.
  - split.
    + rewrite fmap_cons. constructor; [|done]. split; [done|]. by exists (sf_order s), records, ns.
    + intros ts' t [->|Hts]%elem_of_cons Ht'; [by eapply nw_no_comment|by eapply I2].
Qed.
Lemma c100_nationwide E V pd o name rows ss w tss w' seen ts ho um output :
  parser_ok pd → days rec_date rows → hash_order_ok ho →
  imports E w (nw_run E V pd o <$> ss) tss w' → Forall (nw_file V pd name rows w) ss →
  (∀ s, s ∈ ss → f_read E (Path (sf_csv s)) = false ∧ f_read E (Path (sf_out s)) = false) →
  NoDup (sf_out <$> ss) → (∀ s s', s ∈ ss → s' ∈ ss → sf_csv s ≠ sf_out s') → Forall (prints_back E) tss →
  covers (sf_days <$> ss) seen → nw_statement pd o name rows seen ts → ¬ statement_collides (window rows seen) →
  (∀ f, um = Some f → writable E f) → writable E output →
  ∃ es, merge_cmd E ho (Path ∘ sf_out <$> ss) um output w' = (es, Ok tt) ∧
    holds w' (steps w' es) output (e_print E (into_ledger ho (stable_sort (by_key tp_date) (as_merged ts)))) ∧
    ∀ p, Path p ≠ output → same_file w' (steps w' es) p.
Proof.
  intros Hpd Hd Hho Hi Hf Hr Hnd Hdis Hb Hcov Hts Hcol Hum Hout.
  destruct (nw_imports E V pd o name rows ss w tss w' Hi Hnd Hf (λ s Hs, proj1 (Hr s Hs)) Hdis) as [Hst Hnc].
  assert (length tss = length (sf_days <$> ss)) as Hl by (symmetry; by eapply Forall2_length).
  destruct (nw_overlaps pd o name rows (sf_days <$> ss) tss seen ts (replicate (length tss) ho)) as (m & Hm & Hbuild); try done.
  { by rewrite replicate_length. } { by apply Forall_replicate. }
  rewrite list_fmap_compose, <- (nw_runs_out E V pd o).
  apply (merge_imported E ho um output w (nw_run E V pd o <$> ss) tss w' m); try done.
  - apply Forall_fmap, Forall_true. intros s w0. apply nw_only_reads.
  - by rewrite nw_runs_out.
  - rewrite nw_runs_out. intros p (s & -> & Hs)%elem_of_list_fmap. by apply Hr.
  - by apply Hbuild.
Qed.

(** * PayPal *)
Lemma pp_import_reads E V ho tz ns f a w es ns' ts text rows db : f_read E (Path f) = false → f_read E (Path a) = false →
  w_files w !! f = Some text → ce_paypal V text = Some rows → abbr_file V db w a →
  pp_importer E V ho true tz ns (Path f) (Path a) w = (es, Ok (Import ns' ts)) → pp_import ho true tz db ns rows = Ok ts.
Proof.
  intros Hr Hra Hf Hv (at' & ar & Ha & Hva & Hdb). unfold pp_importer, io_bind, read_file, io_of. rewrite Hr, Hra, Hf.
  change (steps w []) with w. rewrite Ha, Hva. cbn [some_or]. rewrite Hdb, Hv. cbn [some_or].
  destruct (pp_import ho true tz db ns rows) as [ts'| |]; [|done..]. unfold io_ret. cbn. by intros [= _ _ <-].
Qed.
Lemma pp_no_comment ho legacy tz db ns rows ts t : pp_import ho legacy tz db ns rows = Ok ts → t ∈ ts → t_comment t = None.
Proof.
  unfold pp_import. intros (recs & _ & H)%rbind_ok. revert ts H. induction (chunk_by pp_datetime recs) as [|g gs IH]; intros ts H; cbn [rmapM] in H.
  - injection H as <-. intros Ht. by apply elem_of_nil in Ht.
  - apply rbind_ok in H as (t' & Ht' & H). apply rbind_ok in H as (ts' & Hts' & [= <-]). intros [->|Hin]%elem_of_cons; [|by eapply IH].
    unfold pp_form_transaction in Ht'. destruct (find_map _ _); [|done]. by injection Ht' as <-.
Qed.
Lemma pp_runs_out E V tz ns abbrs ss : (pp_run E V tz ns abbrs <$> ss).*2 = sf_out <$> ss.
Proof. rewrite <- list_fmap_compose. done. Qed.
Lemma pp_imports E V tz db ns abbrs groups ss w tss w' : imports E w (pp_run E V tz ns abbrs <$> ss) tss w' → NoDup (sf_out <$> ss) →
  Forall (pp_file V db groups w) ss → abbr_file V db w abbrs → f_read E (Path abbrs) = false → (∀ s, s ∈ ss → abbrs ≠ sf_out s) →
  (∀ s, s ∈ ss → f_read E (Path (sf_csv s)) = false) → (∀ s s', s ∈ ss → s' ∈ ss → sf_csv s ≠ sf_out s') →
  Forall2 (pp_statement tz db ns groups) (sf_days <$> ss) tss ∧ ∀ ts t, ts ∈ tss → t ∈ ts → t_comment t = None.
Proof.
  revert w tss. induction ss as [|s ss IH]; intros w tss Hi Hnd Hf Ha Hra Hab Hr Hd; inversion Hi as [|? imp out es ns' ts es' runs' tss' w2 H1 H2 H3]; subst.
  { split; [constructor|]. intros ts t Ht. by apply elem_of_nil in Ht. }
  rewrite Forall_cons in Hf. destruct Hf as [(Hho & Hndd & text & rows & Ht & Hv & Hok & Hs) Hf].
  rewrite fmap_cons, NoDup_cons in Hnd. destruct Hnd as [Hn Hnd].
  pose proof (pp_only_reads E V (sf_order s) true tz ns (Path (sf_csv s)) (Path abbrs) w) as Hq. rewrite H1 in Hq. cbn [fst] in Hq.
  destruct (import_writes _ _ _ _ _ _ _ _ H1 Hq H2) as [F1 F2].
  apply (pp_import_reads E V (sf_order s) tz ns (sf_csv s) abbrs w es ns' ts text rows db) in H1; [|apply Hr; left|done..].
  destruct (IH (steps w es') tss' H3 Hnd) as [I1 I2].
  - apply Forall_forall. intros s' Hs'. rewrite Forall_forall in Hf. destruct (Hf s' Hs') as (A1 & A2 & text' & records' & A3 & A4).
    split; [done|]. split; [done|]. exists text', records'. split; [|done]. rewrite F2; [done|]. apply Hd; [by right|left].
  - destruct Ha as (at' & ar & Ha & Ha'). exists at', ar. split; [|done]. rewrite F2; [done|]. apply Hab. left.
  - done.
  - intros s' Hs'. apply Hab. by right.
  - intros s' Hs'. apply Hr. by right.
  - intros s1 s2 Hs1 Hs2. apply Hd; by right.
  - split.
    + rewrite fmap_cons. constructor; [|done]. split; [done|]. by exists (sf_order s), rows.
    + intros ts' t [->|Hts]%elem_of_cons Ht'; [by eapply pp_no_comment|by eapply I2].
Qed.
Lemma c100_paypal E V tz db ns abbrs groups ss w tss w' seen ts ho um output :
  days (λ g, tz g.1) groups → hash_order_ok ho →
  imports E w (pp_run E V tz ns abbrs <$> ss) tss w' → Forall (pp_file V db groups w) ss →
  abbr_file V db w abbrs → f_read E (Path abbrs) = false → (∀ s, s ∈ ss → abbrs ≠ sf_out s) →
  (∀ s, s ∈ ss → f_read E (Path (sf_csv s)) = false ∧ f_read E (Path (sf_out s)) = false) →
  NoDup (sf_out <$> ss) → (∀ s s', s ∈ ss → s' ∈ ss → sf_csv s ≠ sf_out s') → Forall (prints_back E) tss →
  covers (sf_days <$> ss) seen → pp_statement tz db ns groups seen ts → NoDup (window groups seen).*1 → ¬ groups_collide (window groups seen) →
  (∀ f, um = Some f → writable E f) → writable E output →
  ∃ es, merge_cmd E ho (Path ∘ sf_out <$> ss) um output w' = (es, Ok tt) ∧
    holds w' (steps w' es) output (e_print E (into_ledger ho (stable_sort (by_key tp_date) (as_merged ts)))) ∧
    ∀ p, Path p ≠ output → same_file w' (steps w' es) p.
Proof.
  intros Hd Hho Hi Hf Ha Hra Hab Hr Hnd Hdis Hb Hcov Hts Hnds Hcol Hum Hout.
  destruct (pp_imports E V tz db ns abbrs groups ss w tss w' Hi Hnd Hf Ha Hra Hab (λ s Hs, proj1 (Hr s Hs)) Hdis) as [Hst Hnc].
  assert (length tss = length (sf_days <$> ss)) as Hl by (symmetry; by eapply Forall2_length).
  destruct (pp_overlaps tz db ns groups (sf_days <$> ss) tss seen ts (replicate (length tss) ho)) as (m & Hm & Hbuild); try done.
  { by rewrite replicate_length. } { by apply Forall_replicate. }
  rewrite list_fmap_compose, <- (pp_runs_out E V tz ns abbrs).
  apply (merge_imported E ho um output w (pp_run E V tz ns abbrs <$> ss) tss w' m); try done.
  - apply Forall_fmap, Forall_true. intros s w0. apply pp_only_reads.
  - by rewrite pp_runs_out.
  - rewrite pp_runs_out. intros p (s & -> & Hs)%elem_of_list_fmap. by apply Hr.
  - by apply Hbuild.
Qed.

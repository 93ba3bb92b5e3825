(** A CSV and a PDF statement imported into files, and the files merged (C113). *)
From Verif Require Import MergeClaims.
From Verif Require Import Base Types SpecBase BaseProofs CommentModel MergeModel MergeSpec CmdModel CmdClaims FingerprintModel NwCsvModel PaypalModel
  CommentClaims FingerprintClaims ImportClaims OcrModel PdfModel PdfClaims PiecesClaims TwinClaims StmtTwinClaims StmtTwin
  HeaderClaims CmdPlain ImporterModel WorkCmdClaims WorkCmd PdfWorkClaims PdfWork StmtTwinCmdClaims.
Local Open Scope nat_scope.

Lemma imported_pair E hm um output w i1 o1 i2 o2 ts1 ts2 w' m1 m spec :
  hash_order_ok hm → imports E w [(i1, o1); (i2, o2)] [ts1; ts2] w' → (∀ w, only_reads (i1 w).1) → (∀ w, only_reads (i2 w).1) → o1 ≠ o2 →
  f_read E (Path o1) = false → f_read E (Path o2) = false → prints_back E ts1 → prints_back E ts2 →
  (∀ t, t ∈ ts1 ++ ts2 → t_comment t = None) →
  merge hm merger_new (as_merged ts1) = (m1, Ok []) → merge hm m1 (as_merged ts2) = (m, Ok []) →
  (∀ hb out, hash_order_ok hb → build hb m = Ok out → same_up_to_order spec out) →
  (∀ f, um = Some f → writable E f) → writable E output →
  ∃ es out, merge_cmd E hm [Path o1; Path o2] um output w' = (es, Ok tt) ∧ same_up_to_order spec out ∧
    holds w' (steps w' es) output (e_print E (into_ledger hm out)) ∧ ∀ p, Path p ≠ output → same_file w' (steps w' es) p.
Proof.
  intros Hhm Hi H1 H2 Hne Hr1 Hr2 Hp1 Hp2 Hc Hm1 Hm2 Hspec Hum Hout.
  assert (journals E w' [Path o1; Path o2] (as_merged <$> [ts1; ts2]) w') as Hj.
  { apply (imports_journals E w [(i1, o1); (i2, o2)] [ts1; ts2] w' _ Hi); [| | | |..]; cbn [fmap list_fmap fst snd].
    - apply Forall_cons. split; [exact H1|]. apply Forall_singleton. exact H2.
    - apply NoDup_cons. split; [by rewrite elem_of_list_singleton|apply NoDup_singleton].
    - intros p [->| ->%elem_of_list_singleton]%elem_of_cons; done.
    - apply Forall_cons. split; [done|]. by apply Forall_singleton.
    - intros ts t [->| ->%elem_of_list_singleton]%elem_of_cons Ht; apply Hc, elem_of_app; auto.
    - done. }
  assert (merges hm merger_new (as_merged <$> [ts1; ts2]) [] m) as Hm.
  { cbn [fmap list_fmap]. change (@nil transaction_postings) with ([] ++ [] ++ @nil transaction_postings).
    econstructor; [exact Hm1|]. econstructor; [exact Hm2|]. constructor. }
  destruct (c99_journals E hm _ um output w' _ w' [] m Hhm Hj Hm (or_introl eq_refl) Hum Hout) as (es & un' & out & Hes & Hb & _ & G1 & _ & G3).
  exists es, out. split; [done|]. split; [by eapply Hspec|]. split; [apply G1; auto|]. intros p Hp. by apply G3.
Qed.
Lemma pdf_import_reads X T ho o w es ns ts doc : hash_order_ok ho → shows T doc →
  pdf_importer X T ho o w = (es, Ok (Import ns ts)) → pdf_import X ho o doc = Ok (ns, ts).
Proof.
  intros Hho Hs. unfold pdf_importer, io_bind, io_of. rewrite (shows_document _ _ doc Hho Hs).
  destruct (pdf_import X ho o doc) as [[ns' ts']| |]; [|done..]. unfold io_ret. cbn. by intros [= _ <- <-].
Qed.
Lemma csv_pdf_command E V pd ho o csv records a ts X T ho' o' doc b ts' wl new w w' hm um output :
  hash_order_ok ho → hash_order_ok ho' → hash_order_ok hm →
  csv_statement V pd w csv records → pdf_shown X T doc ts' →
  (∀ ns ns', nw_csv_import pd ho o records = Ok (ns, ts) → pdf_import X ho' o' doc = Ok (ns', ts') → nw_legacy o = false ∨ ns ≠ ns') →
  imports E w [(nw_importer E V pd ho o (Path csv), a); (pdf_importer X T ho' o', b)] [ts; ts'] w' →
  a ≠ b → csv ≠ b → f_read E (Path csv) = false → f_read E (Path a) = false → f_read E (Path b) = false → prints_back E ts → prints_back E ts' →
  (∀ f, um = Some f → writable E f) → writable E output →
  wl.*1 = ts → ts' ≡ₚ omap snd wl ++ new → statements_agree wl new →
  ∃ es out, merge_cmd E hm [Path a; Path b] um output w' = (es, Ok tt) ∧
    same_up_to_order (stable_sort (by_key tp_date) ((payment <$> wl) ++ as_merged new)) out ∧
    holds w' (steps w' es) output (e_print E (into_ledger hm out)) ∧ ∀ p, Path p ≠ output → same_file w' (steps w' es) p.
Proof.
  intros Hho Hho' Hhm (text & name & rs & Hf & Hv & Hpd & Hfo & Hst & Hcont & Hcol) (Hsh & HX & Htx & ls & skip & gs & Hls & Hgr & Htog & Hpc) Hns Hi Hab Hcb Hrc Hra Hrb Hpa Hpb Hum Hout Hw Hperm Hag.
  assert (∃ ns ns', nw_csv_import pd ho o records = Ok (ns, ts) ∧ pdf_import X ho' o' doc = Ok (ns', ts')) as (ns & ns' & Hcsv & Hpdf).
  { pose proof Hi as Hi'. inversion Hi' as [|? ? ? es0 ns ? es1 ? ? ? E1 E2 Hi2]; subst. inversion Hi2 as [|? ? ? es2 ns' ? es3 ? ? ? E3 E4 Hi3]; subst.
    exists ns, ns'. split; [exact (nw_import_reads _ _ _ _ _ _ _ _ _ _ _ _ Hrc Hf Hv E1)|exact (pdf_import_reads _ _ _ _ _ _ _ _ _ Hho' Hsh E3)]. }
  destruct (csv_then_pdf pd ho o records ns ts name rs X ho' o' doc ns' ts' ls skip gs wl new hm hm) as (m1 & m & Hm1 & Hm2 & Hspec); try done.
  { by apply Hns. }
  apply (imported_pair E hm um output w _ a _ b ts ts' w' m1 m _ Hhm Hi); try done.
  - intros w0. apply nw_only_reads.
  - intros w0. apply pdf_only_reads.
  - intros t [Ht|Ht]%elem_of_app; [by eapply nw_no_comment|by eapply pdf_no_comment].
Qed.
Lemma pdf_csv_command E V pd ho o csv records a ts X T ho' o' doc b ts' wl new w w' hm um output :
  hash_order_ok ho → hash_order_ok ho' → hash_order_ok hm →
  csv_statement V pd w csv records → pdf_shown X T doc ts' →
  (∀ ns ns', nw_csv_import pd ho o records = Ok (ns, ts) → pdf_import X ho' o' doc = Ok (ns', ts') → nw_legacy o = false ∨ ns ≠ ns') →
  imports E w [(pdf_importer X T ho' o', b); (nw_importer E V pd ho o (Path csv), a)] [ts'; ts] w' →
  a ≠ b → csv ≠ b → f_read E (Path csv) = false → f_read E (Path a) = false → f_read E (Path b) = false → prints_back E ts → prints_back E ts' →
  (∀ f, um = Some f → writable E f) → writable E output →
  wl.*1 = ts' → ts ≡ₚ omap snd wl ++ new → statements_agree wl new →
  ∃ es out, merge_cmd E hm [Path b; Path a] um output w' = (es, Ok tt) ∧
    same_up_to_order (stable_sort (by_key tp_date) ((payment <$> wl) ++ as_merged new)) out ∧
    holds w' (steps w' es) output (e_print E (into_ledger hm out)) ∧ ∀ p, Path p ≠ output → same_file w' (steps w' es) p.
Proof.
  intros Hho Hho' Hhm (text & name & rs & Hf & Hv & Hpd & Hfo & Hst & Hcont & Hcol) (Hsh & HX & Htx & ls & skip & gs & Hls & Hgr & Htog & Hpc) Hns Hi Hab Hcb Hrc Hra Hrb Hpa Hpb Hum Hout Hw Hperm Hag.
  assert (∃ ns ns', nw_csv_import pd ho o records = Ok (ns, ts) ∧ pdf_import X ho' o' doc = Ok (ns', ts')) as (ns & ns' & Hcsv & Hpdf).
  { pose proof Hi as Hi'. inversion Hi' as [|? ? ? es0 ns' ? es1 ? ? ? E1 E2 Hi2]; subst. inversion Hi2 as [|? ? ? es2 ns ? es3 ? ? ? E3 E4 Hi3]; subst.
    exists ns, ns'. split; [|exact (pdf_import_reads _ _ _ _ _ _ _ _ _ Hho' Hsh E1)].
    eapply nw_import_reads; [exact Hrc| |exact Hv|exact E3].
    pose proof (pdf_only_reads X T ho' o' w) as Hq. rewrite E1 in Hq. destruct (import_writes _ _ _ _ _ _ _ _ E1 Hq E2) as [_ Hs]. by rewrite Hs. }
  destruct (pdf_then_csv pd ho o records ns ts name rs X ho' o' doc ns' ts' ls skip gs wl new hm hm) as (m1 & m & Hm1 & Hm2 & Hspec); try done.
  { by apply Hns. }
  apply (imported_pair E hm um output w _ b _ a ts' ts w' m1 m _ Hhm Hi); try done.
  - intros w0. apply pdf_only_reads.
  - intros w0. apply nw_only_reads.
  - intros t [Ht|Ht]%elem_of_app; [by eapply pdf_no_comment|by eapply nw_no_comment].
Qed.

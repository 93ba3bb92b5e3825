(** Importing PDF statements into files and merging the files (C100). *)
From Verif Require Import MergeClaims.
From Verif Require Import Base Types SpecBase BaseProofs CommentModel MergeModel MergeSpec CmdModel CmdClaims FingerprintModel NwCsvModel PaypalModel
  CommentClaims FingerprintClaims ImportClaims EditClaims OcrModel OcrClaims OcrProofs PdfModel PdfClaims PdfLaws WindowClaims StatementClaims PdfDaysClaims PdfDays
  ImporterModel ImporterClaims ImporterLaws WorkCmdClaims WorkCmd PdfWorkClaims.
Local Open Scope nat_scope.

Lemma shows_document T ho doc : hash_order_ok ho → shows T doc → ocr_document T ho = Ok doc.
Proof.
  intros Hho (Ht & Hw & pages & recs & Hr & Hc & Hl & Hf). rewrite (c95_in_order T ho pages recs) by done.
  by apply c64_reading_order.
Qed.
Lemma pdf_no_comment E ho o doc ns ts t : pdf_import E ho o doc = Ok (ns, ts) → t ∈ ts → t_comment t = None.
Proof.
  intros H Ht. destruct (pdf_transaction _ _ _ _ _ _ _ H Ht) as (E' & n & g & b & Hb & Hbt).
  destruct (built_transaction _ _ _ _ _ _ _ Hb Hbt) as (d & a & es & bs & own & peer & b' & acct & H'). apply H'.
Qed.
Lemma pdf_runs_out X o ss : (pdf_run X o <$> ss).*2 = pf_out <$> ss.
Proof. rewrite <- list_fmap_compose. done. Qed.
Lemma pdf_imports E X o name parts ss w tss w' : imports E w (pdf_run X o <$> ss) tss w' →
  Forall (pdf_file_ok X name parts) ss →
  Forall2 (pdf_statement X o name parts) (pf_days <$> ss) tss ∧ ∀ ts t, ts ∈ tss → t ∈ ts → t_comment t = None.
Proof.
  revert w tss. induction ss as [|s ss IH]; intros w tss Hi Hf; inversion Hi as [|? imp out es ns ts es' runs' tss' w2 H1 H2 H3]; subst.
  { split; [constructor|]. intros ts t Ht. by apply elem_of_nil in Ht. }
  rewrite Forall_cons in Hf. destruct Hf as [(Hho & Hnd & doc & ls & skip & gs & Hs & Ha & Hl & Hg & Hw) Hf].
  destruct (IH _ _ H3 Hf) as [I1 I2].
  unfold pdf_importer, io_bind, io_of in H1. rewrite (shows_document _ _ doc Hho Hs) in H1.
  destruct (pdf_import X (pf_order s) o doc) as [[ns' ts']| |] eqn:Ep; [|done..]. unfold io_ret in H1. cbn in H1. injection H1 as <- <- <-.
  split.
  - rewrite fmap_cons. constructor; [|done]. split; [done|]. exists (pf_order s), doc, ns', ls, skip, gs. done.
  - intros ts t [->|Hts]%elem_of_cons Ht; [by eapply pdf_no_comment|by eapply I2].
Qed.
Lemma c100_pdf E X o name ds parts ss w tss w' seen ts ho um output :
  env_ok X → whole_days ds parts → hash_order_ok ho →
  imports E w (pdf_run X o <$> ss) tss w' → Forall (pdf_file_ok X name parts) ss →
  (∀ s, s ∈ ss → f_read E (Path (pf_out s)) = false) → NoDup (pf_out <$> ss) → Forall (prints_back E) tss →
  covers (pf_days <$> ss) seen → pdf_statement X o name parts seen ts → (∀ t, t ∈ ts → str_ok (t_description t)) →
  ¬ pdf_collides ts (sequence None 0 (window parts seen)) →
  (∀ f, um = Some f → writable E f) → writable E output →
  ∃ es, merge_cmd E ho (Path ∘ pf_out <$> ss) um output w' = (es, Ok tt) ∧
    holds w' (steps w' es) output (e_print E (into_ledger ho (stable_sort (by_key tp_date) (as_merged ts)))) ∧
    ∀ p, Path p ≠ output → same_file w' (steps w' es) p.
Proof.
  intros HX Hd Hho Hi Hf Hr Hnd Hb Hcov Hts Htx Hcol Hum Hout.
  destruct (pdf_imports E X o name parts ss w tss w' Hi Hf) as [Hst Hnc].
  assert (length tss = length (pf_days <$> ss)) as Hl by (symmetry; by eapply Forall2_length).
  destruct (pdf_overlaps X o name ds parts (pf_days <$> ss) tss seen ts (replicate (length tss) ho)) as (m & Hm & Hbuild); try done.
  { by rewrite replicate_length. } { by apply Forall_replicate. }
  rewrite list_fmap_compose, <- (pdf_runs_out X o).
  apply (merge_imported E ho um output w (pdf_run X o <$> ss) tss w' m); try done.
  - apply Forall_fmap, Forall_true. intros s w0. apply pdf_only_reads.
  - by rewrite pdf_runs_out.
  - rewrite pdf_runs_out. intros p (s & -> & Hs)%elem_of_list_fmap. by apply Hr.
  - by apply Hbuild.
Qed.

(** PDF statements imported, ruled and merged (C108). *)
From Verif Require Import MergeClaims.
From Verif Require Import Base Types SpecBase BaseProofs CommentModel MergeModel MergeSpec CmdModel CmdClaims FingerprintModel NwCsvModel PaypalModel
  CommentClaims FingerprintClaims ImportClaims EditClaims OcrModel OcrClaims PdfModel PdfClaims WindowClaims StatementClaims PdfDaysClaims PdfDays
  RulesModel RulesClaims HeaderClaims ImporterModel ImporterClaims WorkCmdClaims WorkCmd PdfWorkClaims PdfWork PipeClaims Pipe.
Local Open Scope nat_scope.

Lemma c108_pdf E o name ds parts ws tss seen ts hos X T Js :
  env_ok E → whole_days ds parts → Forall2 (pdf_statement E o name parts) ws tss →
  covers ws seen → pdf_statement E o name parts seen ts → (∀ t, t ∈ ts → str_ok (t_description t)) →
  ¬ pdf_collides ts (sequence None 0 (window parts seen)) →
  is_Some (T !! s2l "start") → leaves_fingerprints T → Forall2 (ruled X T) (as_merged <$> tss) Js →
  length hos = length ws → Forall hash_order_ok hos →
  ∃ J m, ruled X T (as_merged ts) J ∧ clean_run merger_new (zip hos Js) m ∧
    ∀ ho, hash_order_ok ho → build ho m = Ok (stable_sort (by_key tp_date) J).
Proof.
  intros HE Hd Hws Hcov Hts Htx Hcol Hs HT HJ Hlen Hhos. destruct (pdf_pieces E o name ds parts ws tss seen ts) as (f & -> & Ef & Hok & Hda & Hnd); try done.
  rewrite Ef in HJ. by eapply ruled_pieces.
Qed.
Lemma c108_pdf_cmd E P o name ds parts ss w tss w' seen ts X F rules T rs w2 ho um output :
  env_ok P → whole_days ds parts → hash_order_ok ho →
  imports E w (pdf_run P o <$> ss) tss w' → Forall (pdf_file_ok P name parts) ss →
  (∀ s, s ∈ ss → f_read E (Path (pf_out s)) = false) → NoDup (pf_out <$> ss) → Forall (prints_back E) tss →
  covers (pf_days <$> ss) seen → pdf_statement P o name parts seen ts → (∀ t, t ∈ ts → str_ok (t_description t)) →
  ¬ pdf_collides ts (sequence None 0 (window parts seen)) →
  one_file F → rules_loaded F rules T → leaves_fingerprints T →
  rulings E X F rules w' rs w2 → rr_in <$> rs = pf_out <$> ss → NoDup (rr_out <$> rs) →
  (∀ i k r r', rs !! i = Some r → rs !! k = Some r' → i < k → rr_out r ≠ rr_in r') →
  (∀ r, r ∈ rs → f_read E (Path (rr_out r)) = false) →
  (∀ ts J, ts ∈ tss → ruled X T (as_merged ts) J → reads_back E J) →
  (∀ f, um = Some f → writable E f) → writable E output →
  ∃ J es, ruled X T (as_merged ts) J ∧ merge_cmd E ho (Path ∘ rr_out <$> rs) um output w2 = (es, Ok tt) ∧
    holds w2 (steps w2 es) output (e_print E (into_ledger ho (stable_sort (by_key tp_date) J))) ∧
    ∀ p, Path p ≠ output → same_file w2 (steps w2 es) p.
Proof.
  intros HP Hd Hho Hi Hf Hr Hnd Hb Hcov Hts Htx Hcol Hone HT Hlf Hru Hin Hnd2 Hlt Hr2 Hb2 Hum Hout.
  destruct (pdf_imports E P o name parts ss w tss w' Hi Hf) as [Hst Hnc].
  assert (journals E w' (Path <$> (rr_in <$> rs)) (as_merged <$> tss) w') as Hj.
  { rewrite Hin, <- (pdf_runs_out P o). eapply imports_journals; try done.
    - apply Forall_fmap, Forall_true. intros s w0. apply pdf_only_reads.
    - by rewrite pdf_runs_out.
    - rewrite pdf_runs_out. intros p (s & -> & Hs)%elem_of_list_fmap. by apply Hr. }
  pose proof (journals_each _ _ _ _ _ Hj (rr_in <$> rs) eq_refl) as Hje. rewrite Forall2_fmap_l in Hje.
  destruct (rulings_journals E X F rules T w' rs w2 (as_merged <$> tss)) as (Js & HJ & Hjs); try done.
  { intros tps J (ts0 & -> & Hts0)%elem_of_list_fmap. by apply Hb2. }
  assert (length Js = length (pf_days <$> ss)) as Hl.
  { rewrite (Forall2_length _ _ _ Hst), <- (Forall2_length _ _ _ HJ). by rewrite fmap_length. }
  destruct (c108_pdf P o name ds parts (pf_days <$> ss) tss seen ts (replicate (length Js) ho) X T Js) as (J & m & H1 & H2 & H3); try done.
  { apply HT. } { by rewrite replicate_length. } { by apply Forall_replicate. }
  exists J. destruct (merge_files E ho um output w2 _ Js m _ Hho Hjs H2 (H3 ho Hho) Hum Hout) as (es & ? & ? & ?). by exists es.
Qed.

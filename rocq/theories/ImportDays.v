(** Overlapping Nationwide statements. *)
From Verif Require Import MergeClaims.
From Verif Require Import Base Types SpecBase BaseProofs StrProofs CommentModel CommentClaims CommentLaws MergeModel Sha1 FingerprintModel NwCsvModel
  FingerprintClaims FingerprintProofs FingerprintLaws ImportClaims ImportProofs ImportRows ImportLaws.
From Verif Require Import MergeProofs MergeLemmas MergeLaws4 EditClaims WindowClaims MergeDays StatementClaims.
From Coq Require Import Lia.
Local Open Scope nat_scope.

Lemma nw_posting_order ho ho' h bal c : hash_order_ok ho → hash_order_ok ho' → nw_posting ho h bal c = nw_posting ho' h bal c.
Proof. intros H H'. unfold nw_posting. by rewrite (into_opt_comment_order ho ho'). Qed.
Lemma rec_form_order ho ho' r ns name c l : hash_order_ok ho → hash_order_ok ho' →
  rec_form_postings ho r ns name c l = rec_form_postings ho' r ns name c l.
Proof.
  intros H H'. destruct r as [r|r]; cbn [rec_form_postings]; unfold five_form_postings, six_form_postings.
  - destruct (self_amount_of _ _); [|done..]. cbn [rbind]. destruct (five_fingerprint_v1 _ _ _); [|done..]. cbn [rbind].
    destruct (seq_value _ _); [|done..]. cbn [rbind]. do 2 f_equal; by apply nw_posting_order.
  - destruct (self_amount_of _ _); [|done..]. cbn [rbind]. destruct (six_fingerprint_v1 _ _ _); [|done..]. cbn [rbind].
    destruct (seq_value _ _); [|done..]. cbn [rbind]. destruct l; cbn [rbind].
    + destruct (six_fingerprint_legacy _ _ _ _); [|done..]. cbn [rbind]. do 2 f_equal; by apply nw_posting_order.
    + do 2 f_equal; by apply nw_posting_order.
Qed.
Lemma rows_give_fun ho ho' legacy ns name h rs ts ts' : hash_order_ok ho → hash_order_ok ho' →
  rows_give ho legacy ns name h rs ts → rows_give ho' legacy ns name h rs ts' → ts = ts'.
Proof.
  intros H H'. revert h ts ts'. induction rs as [|r rs IH]; intros h [|t ts] [|t' ts']; cbn [rows_give]; try done.
  intros [(p1 & p2 & E & _ & ->) G] [(q1 & q2 & E' & _ & ->) G']. rewrite (rec_form_order ho ho') in E by done.
  rewrite E in E'. injection E' as <- <-. f_equal. by eapply IH.
Qed.
Lemma rows_give_split ho legacy ns name (rows : list (list nw_record)) w ts : days rec_date rows → NoDup w →
  rows_give ho legacy ns name [] (window rows w) ts →
  ∃ f, (∀ k, k ∈ w → rows_give ho legacy ns name [] (default [] (rows !! k)) (f k)) ∧ ts = w ≫= f.
Proof.
  intros Hd. revert ts. induction w as [|k w IH]; intros ts Hnd Hg.
  { exists (λ _, []). split; [intros k Hk; by apply elem_of_nil in Hk|]. unfold window in Hg. cbn in Hg. by destruct ts. }
  apply NoDup_cons in Hnd as [Hk Hnd]. change (window rows (k :: w)) with (default [] (rows !! k) ++ window rows w) in Hg.
  apply rows_give_app in Hg as (ts1 & ts2 & -> & H1 & H2). rewrite app_nil_r in H2.
  apply (rows_give_sep _ _ _ _ []) in H2.
  - destruct (IH ts2 Hnd H2) as (f & Hf & ->). exists (λ i, if decide (i = k) then ts1 else f i). split.
    + intros i [->|Hi]%elem_of_cons; [by rewrite decide_True|]. rewrite decide_False by (by intros ->). auto.
    + rewrite bind_cons, decide_True by done. f_equal. apply bind_cond. intros i Hi. by rewrite decide_False by (by intros ->).
  - rewrite app_nil_r. destruct (window rows w) as [|r rs] eqn:Ew; [by left|]. right. exists (rec_date r).
    rewrite fmap_cons, reverse_cons, last_snoc. split; [done|]. rewrite head_reverse.
    intros Hl. destruct (last (default [] (rows !! k))) as [r'|] eqn:El.
    2:{ apply last_None in El. by rewrite El in Hl. }
    rewrite fmap_last, El in Hl. cbn in Hl. injection Hl as E.
    assert (r ∈ window rows w) as (k' & D & Hk' & HD & Hr)%elem_window by (rewrite Ew; left).
    destruct (rows !! k) as [D0|] eqn:E0; [|done]. cbn in El.
    assert (k = k') as ->; [|done]. apply (Hd k k' D0 D r' r); try done. by apply last_Some_elem_of.
Qed.
Lemma window_contiguous (rows : list (list nw_record)) w : days rec_date rows → NoDup w → contiguous (rec_date <$> window rows w).
Proof.
  intros Hd. induction w as [|k w IH]; intros Hnd; [by intros i j n d _ _ Hi|].
  apply NoDup_cons in Hnd as [Hk Hnd]. change (window rows (k :: w)) with (default [] (rows !! k) ++ window rows w).
  specialize (IH Hnd). rewrite fmap_app. set (A := rec_date <$> default [] (rows !! k)) in *.
  assert (∀ i d, A !! i = Some d → ∃ r D, rows !! k = Some D ∧ r ∈ D ∧ rec_date r = d) as HA.
  { intros i d Hi. unfold A in Hi. rewrite list_lookup_fmap in Hi. destruct (default [] (rows !! k) !! i) as [r|] eqn:E; [|done].
    cbn in Hi. injection Hi as <-. destruct (rows !! k) as [D|] eqn:ED; [|done]. exists r, D. split_and!; try done. by eapply elem_of_list_lookup_2. }
  assert (∀ i d, (rec_date <$> window rows w) !! i = Some d → ∃ k' r D, k' ∈ w ∧ rows !! k' = Some D ∧ r ∈ D ∧ rec_date r = d) as HB.
  { intros i d Hi. rewrite list_lookup_fmap in Hi. destruct (window rows w !! i) as [r|] eqn:E; [|done].
    cbn in Hi. injection Hi as <-. apply elem_of_list_lookup_2, elem_window in E as (k' & D & ? & ? & ?). eauto 10. }
  intros i j n d Hij Hjn Hi Hn. apply lookup_app_Some in Hi as [Hi|[Hi0 Hi]], Hn as [Hn|[Hn0 Hn]].
  - assert (j < length A) as [d' Hj]%lookup_lt_is_Some by (apply lookup_lt_Some in Hn; lia). rewrite lookup_app_l by (by eapply lookup_lt_Some).
    rewrite Hj. f_equal. destruct (HA _ _ Hj) as (r & D & HD & Hr & <-), (HA _ _ Hi) as (r' & D' & HD' & Hr' & <-).
    by apply (Hd k k D D' r r').
  - destruct (HA _ _ Hi) as (r & D & HD & Hr & <-), (HB _ _ Hn) as (k' & r' & D' & Hk' & HD' & Hr' & E).
    assert (k = k') as -> by (by apply (Hd k k' D D' r r')). done.
  - apply lookup_lt_Some in Hn. lia.
  - rewrite lookup_app_r by lia. by apply (IH (i - length A) _ (n - length A)); [lia..| |].
Qed.
Lemma import_ok pd ho o records ns ts name rs : hash_order_ok ho → parser_ok pd → fields_ok records →
  nw_csv_import pd ho o records = Ok (ns, ts) → statement_reads pd records name rs → contiguous (rec_date <$> rs) → ¬ statement_collides rs →
  journal_ok (as_merged ts).
Proof.
  intros Hho Hpd Hf Him Hs Hc Hcol. split_and!.
  - intros p Hp. by apply (import_mergeable pd ho o records ns ts).
  - intros i j p q Hi Hj Hsh. destruct (decide (i = j)) as [|Hij]; [done|]. destruct Hcol. by apply (c43 pd ho o records ns ts name rs i j p q).
  - intros tp (t & -> & Ht)%elem_of_list_fmap. destruct (import_two _ _ _ _ _ _ _ Him Ht) as (p1 & p2 & E). cbn. by rewrite E.
Qed.
Lemma as_merged_bind (f : nat → list transaction) w : as_merged (w ≫= f) = w ≫= (λ k, as_merged (f k)).
Proof. unfold as_merged. induction w as [|k w IH]; [done|]. rewrite !bind_cons, fmap_app. by f_equal. Qed.
Lemma date_merged t : tp_date (transaction_postings_of t) = t_date t.
Proof. by destruct t. Qed.

(** C87 *)
Lemma nw_pieces pd o name rows ws tss seen ts :
  parser_ok pd → days rec_date rows → Forall2 (nw_statement pd o name rows) ws tss →
  covers ws seen → nw_statement pd o name rows seen ts → ¬ statement_collides (window rows seen) →
  ∃ f, as_merged ts = seen ≫= f ∧ as_merged <$> tss = (λ w, w ≫= f) <$> ws ∧ journal_ok (seen ≫= f) ∧
    (∀ i k a b, i ∈ seen → k ∈ seen → a ∈ f i → b ∈ f k → tp_date a = tp_date b ↔ i = k) ∧ Forall NoDup ws.
Proof.
  intros Hpd Hd Hws Hcov (Hnd & ho0 & records & ns & Hho0 & Hf & Hs & Him) Hcol.
  pose proof Him as (name' & rs' & Hs' & Hns & Hg)%import_reads. destruct (statement_fun _ _ _ _ _ _ Hs Hs') as [<- <-].
  destruct (rows_give_split _ _ _ _ rows seen ts Hd Hnd Hg) as (f & Hfk & Ets).
  exists (λ k, as_merged (f k)). rewrite <- as_merged_bind, <- Ets. split; [done|].
  split.
  { assert (∀ w, w ∈ ws → ∀ k, k ∈ w → k ∈ seen) as Hsub by (intros w Hw k Hk; apply Hcov; eauto).
    clear -Hws Hsub Hfk Hd Hho0 Hns. induction Hws as [|w tw ws tss Hw Hws IH]; [done|]. rewrite !fmap_cons. f_equal.
    - destruct Hw as (Hndw & how & recw & nsw & Hhow & _ & Hsw & Himw).
      pose proof Himw as (namew & rsw & Hsw' & Hnsw & Hgw)%import_reads. destruct (statement_fun _ _ _ _ _ _ Hsw Hsw') as [<- <-].
      rewrite Hns in Hnsw. apply Ok_inj in Hnsw as <-.
      destruct (rows_give_split _ _ _ _ rows w tw Hd Hndw Hgw) as (g & Hgk & ->). rewrite as_merged_bind. apply bind_cond. intros k Hk. f_equal.
      eapply (rows_give_fun how ho0); [done..|by apply Hgk|]. apply Hfk. eapply Hsub; [left|done].
    - apply IH. intros w' Hw'. apply Hsub. by right. }
  split; [|split].
  - eapply import_ok; try done. by apply window_contiguous.
  - intros i k a b Hi Hk (t & -> & Ht)%elem_of_list_fmap (t' & -> & Ht')%elem_of_list_fmap. rewrite !date_merged.
    assert (∀ k t, k ∈ seen → t ∈ f k → ∃ D r, rows !! k = Some D ∧ r ∈ D ∧ rec_date r = t_date t) as Hr.
    { clear -Hfk. intros k t Hk Ht. pose proof (rows_give_dates _ _ _ _ _ _ _ (Hfk k Hk)) as E.
      assert (t_date t ∈ rec_date <$> default [] (rows !! k)) as Hin by (rewrite <- E; by apply elem_of_list_fmap_1).
      apply elem_of_list_fmap in Hin as (r & Er & Hr). destruct (rows !! k) as [D|]; [|by apply elem_of_nil in Hr]. eauto. }
    destruct (Hr i t Hi Ht) as (D & r & HD & Hrr & <-), (Hr k t' Hk Ht') as (D' & r' & HD' & Hrr' & <-). by apply (Hd i k D D').
  - apply Forall_forall. intros w [i Hi]%elem_of_list_lookup. destruct (Forall2_lookup_l _ _ _ _ _ Hws Hi) as (tw & _ & Hw). apply Hw.
Qed.
Lemma nw_overlaps pd o name rows ws tss seen ts hos :
  parser_ok pd → days rec_date rows → Forall2 (nw_statement pd o name rows) ws tss →
  covers ws seen → nw_statement pd o name rows seen ts → ¬ statement_collides (window rows seen) →
  length hos = length ws → Forall hash_order_ok hos →
  ∃ m, clean_run merger_new (zip hos (as_merged <$> tss)) m ∧
    ∀ ho, hash_order_ok ho → build ho m = Ok (stable_sort (by_key tp_date) (as_merged ts)).
Proof.
  intros Hpd Hd Hws Hcov Hts Hcol Hlen Hhos. destruct (nw_pieces pd o name rows ws tss seen ts) as (f & -> & -> & Hok & Hda & Hnd); try done.
  by apply pieces_merge.
Qed.

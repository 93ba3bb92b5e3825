(** Overlapping PDF statements. *)
From Verif Require Import MergeClaims.
From Verif Require Import Base Types SpecBase BaseProofs CommentModel CommentClaims CommentLaws MergeModel Sha1 FingerprintModel NwCsvModel PaypalModel
  FingerprintClaims ImportClaims ImportProofs ImportLaws OcrModel PdfModel PdfClaims PdfTable PdfFold PdfLaws.
From Verif Require Import MergeProofs MergeLemmas MergeLaws4 EditClaims WindowClaims MergeDays StatementClaims ImportDays PdfDaysClaims.
From Coq Require Import Lia.
Local Open Scope nat_scope.

Lemma build_trn_order ho ho' ns b : hash_order_ok ho → hash_order_ok ho' → build_trn ho ns b = build_trn ho' ns b.
Proof.
  intros H H'. unfold build_trn. destruct (builder_new _ _ _); [|done..]. cbn [rbind]. destruct (seq_value _ _); [|done..]. cbn [rbind].
  do 2 f_equal. f_equal; [|f_equal]; by apply nw_posting_order.
Qed.
Lemma start_reads_fun E l d a ty d' a' ty' : start_reads E l d a ty → start_reads E l d' a' ty' → d = d' ∧ a = a' ∧ ty = ty'.
Proof.
  intros (Hd & _ & s & [Hs Hc] & Ht) (Hd' & _ & s' & [Hs' Hc'] & Ht'). split; [congruence|].
  destruct a as [q c], a' as [q' c']. cbn in *. destruct ty, ty'; destruct Ht, Ht'; simplify_eq; (split; [f_equal; congruence|done]).
Qed.
Lemma Forall2_fun {A B} (R : A → B → Prop) l k k' : (∀ x y y', R x y → R x y' → y = y') → Forall2 R l k → Forall2 R l k' → k = k'.
Proof.
  intros HR H. revert k'. induction H as [|x y l k Hxy H IH]; intros k' Hk'.
  - by apply Forall2_nil_inv_l in Hk' as ->.
  - apply Forall2_cons_inv_l in Hk' as (y' & k2 & Hy' & Hk2 & ->). f_equal; [by eapply HR|by apply IH].
Qed.
Lemma builds_fun E n g b b' : builds E n g b → builds E n g b' → b = b'.
Proof.
  intros (d & a & ty & es & bs & Hs & He & Hb & ->) (d' & a' & ty' & es' & bs' & Hs' & He' & Hb' & ->).
  destruct (start_reads_fun _ _ _ _ _ _ _ _ Hs Hs') as (-> & -> & ->). f_equal; f_equal.
  - eapply Forall2_fun; [|exact He|exact He']. cbn. intros; congruence.
  - eapply Forall2_fun; [|exact Hb|exact Hb']. intros s [q c] [q' c'] [H1 H2] [H1' H2']. cbn in *. congruence.
Qed.
Lemma gives_fun E ho ho' ns prev n gs ts ts' : hash_order_ok ho → hash_order_ok ho' →
  gives E ho ns prev n gs ts → gives E ho' ns prev n gs ts' → ts = ts'.
Proof.
  intros H H'. revert prev n ts ts'. induction gs as [|g gs IH]; intros prev n [|t ts] [|t' ts']; cbn [gives]; try done.
  intros (b & _ & Hb & Ht & Hg) (b' & _ & Hb' & Ht' & Hg'). pose proof (builds_fun _ _ _ _ _ Hb Hb') as <-.
  rewrite (build_trn_order ho ho') in Ht by done. f_equal; [|by eapply IH]. rewrite Ht in Ht'. by apply Ok_inj in Ht'.
Qed.

(** Places do not matter. *)
Lemma filter_unplaced (ls : list trn_line) : filter effective_line (unplaced <$> ls) = unplaced <$> filter effective_line ls.
Proof. induction ls as [|l ls IH]; [done|]. rewrite fmap_cons, !filter_cons. by repeat case_decide; rewrite ?fmap_cons, IH. Qed.
Lemma filter_unplaced' (ls : list trn_line) : filter (λ l, ¬ effective_line l) (unplaced <$> ls) = unplaced <$> filter (λ l, ¬ effective_line l) ls.
Proof. induction ls as [|l ls IH]; [done|]. rewrite fmap_cons, !filter_cons. by repeat case_decide; rewrite ?fmap_cons, IH. Qed.
Lemma group_lines_unplaced g : group_lines (unplaced_group g) = unplaced <$> group_lines g.
Proof. done. Qed.
Lemma builds_unplaced E n g b : builds E n (unplaced_group g) b ↔ builds E n g b.
Proof.
  unfold builds. cbn [unplaced_group fst snd]. rewrite filter_unplaced.
  assert (omap tl_balance (group_lines (unplaced_group g)) = omap tl_balance (group_lines g)) as ->.
  { rewrite group_lines_unplaced. induction (group_lines g) as [|l ls IH]; [done|]. cbn. by rewrite IH. }
  assert (group_description (unplaced_group g) = group_description g) as ->.
  { unfold group_description. cbn [unplaced_group fst snd tl_detail unplaced]. rewrite filter_unplaced', <- list_fmap_compose. done. }
  setoid_rewrite Forall2_fmap_l. done.
Qed.
Lemma last_unplaced g : default (tl_date (unplaced_group g).1) (tl_date <$> last (unplaced_group g).2) = default (tl_date g.1) (tl_date <$> last g.2).
Proof. cbn [unplaced_group fst snd]. rewrite fmap_last. by destruct (last g.2). Qed.
Lemma gives_unplaced E ho ns prev n gs ts : gives E ho ns prev n (unplaced_group <$> gs) ts ↔ gives E ho ns prev n gs ts.
Proof.
  revert prev n ts. induction gs as [|g gs IH]; intros prev n [|t ts]; try done. rewrite fmap_cons. cbn [gives].
  change (next_number prev n (unplaced_group g).1) with (next_number prev n g.1). rewrite last_unplaced.
  setoid_rewrite builds_unplaced. setoid_rewrite IH. done.
Qed.
Lemma sequence_unplaced prev n gs : sequence prev n (unplaced_group <$> gs) = sequence prev n gs.
Proof.
  revert prev n. induction gs as [|g gs IH]; intros prev n; [done|]. rewrite fmap_cons, !sequence_cons, last_unplaced, IH. done.
Qed.

(** Day by day. *)
Lemma gives_app E ho ns prev n gs gs' ts : gives E ho ns prev n (gs ++ gs') ts → ∃ prev' n' ts1 ts2, ts = ts1 ++ ts2 ∧
  gives E ho ns prev n gs ts1 ∧ gives E ho ns prev' n' gs' ts2 ∧
  prev' = match last (gs ≫= group_lines) with Some l => tl_date l | None => prev end.
Proof.
  revert prev n ts. induction gs as [|g gs IH]; intros prev n ts H; [by exists prev, n, [], ts|].
  destruct ts as [|t ts]; [done|]. cbn [app gives] in H. destruct H as (b & Hm & Hb & Ht & H).
  destruct (IH _ _ _ H) as (prev' & n' & ts1 & ts2 & -> & H1 & H2 & E'). exists prev', n', (t :: ts1), ts2.
  split; [done|]. split; [by exists b|]. split; [done|]. rewrite bind_cons. rewrite E'.
  destruct (last (gs ≫= group_lines)) as [l|] eqn:El.
  - assert (last (group_lines g ++ (gs ≫= group_lines)) = Some l) as ->; [|done].
    rewrite last_app_or. by rewrite El.
  - apply last_None in El. rewrite El, app_nil_r. destruct g as [l ls]. unfold group_lines. cbn [fst snd].
    change (l :: ls) with ([l] ++ ls). rewrite last_app_or. by destruct (last ls).
Qed.
Lemma gives_fresh E ho ns prev n gs ts d : (∀ g, head gs = Some g → tl_date g.1 = Some d) → prev ≠ Some d →
  gives E ho ns prev n gs ts → gives E ho ns None 0 gs ts.
Proof.
  intros Hd Hp. destruct gs as [|g gs]; [done|]. specialize (Hd g eq_refl). destruct ts as [|t ts]; [done|]. cbn [gives].
  assert (next_number prev n g.1 = next_number None 0 g.1) as -> by (unfold next_number; by rewrite Hd, !decide_False by congruence). done.
Qed.
Lemma gives_split E ho ns ds parts w ts : whole_days ds parts → NoDup w → gives E ho ns None 0 (window parts w) ts →
  ∃ f, (∀ k, k ∈ w → gives E ho ns None 0 (default [] (parts !! k)) (f k)) ∧ ts = w ≫= f.
Proof.
  intros (Hds & Hlen & Hd). revert ts. induction w as [|k w IH]; intros ts Hnd Hg.
  { exists (λ _, []). split; [intros k Hk; by apply elem_of_nil in Hk|]. unfold window in Hg. cbn in Hg. by destruct ts. }
  apply NoDup_cons in Hnd as [Hk Hnd]. change (window parts (k :: w)) with (default [] (parts !! k) ++ window parts w) in Hg.
  apply gives_app in Hg as (prev & n & ts1 & ts2 & -> & H1 & H2 & Hprev).
  assert (gives E ho ns None 0 (window parts w) ts2) as H3.
  { destruct (window parts w) as [|g gs] eqn:Ew; [done|].
    assert (g ∈ window parts w) as (k' & D' & Hk' & HD' & Hg)%elem_window by (rewrite Ew; left).
    assert (k' < length ds) as [d' Hd']%lookup_lt_is_Some by (apply lookup_lt_Some in HD'; lia).
    eapply (gives_fresh _ _ _ prev n _ _ d'); [|..|exact H2].
    - intros g' [= <-]. eapply (Hd k' d' D' g); try done. left.
    - destruct (last _) as [l|] eqn:El; [|by subst prev].
      intros Hl. subst prev. apply last_Some_elem_of, elem_of_list_bind in El as (g0 & Hl0 & Hg0).
      destruct (parts !! k) as [D|] eqn:ED; [|by apply elem_of_nil in Hg0]. cbn in Hg0.
      assert (k < length ds) as [d0 Hd0]%lookup_lt_is_Some by (apply lookup_lt_Some in ED; lia).
      pose proof (Hd k d0 D g0 l Hd0 ED Hg0 Hl0) as E0. rewrite E0 in Hl. injection Hl as ->.
      apply Hk. assert (k = k') as ->; [|done]. exact (NoDup_lookup _ _ _ _ Hds Hd0 Hd'). }
  destruct (IH ts2 Hnd H3) as (f & Hf & ->). exists (λ i, if decide (i = k) then ts1 else f i). split.
  - intros i [->|Hi]%elem_of_cons; [by rewrite decide_True|]. rewrite decide_False by (by intros ->). auto.
  - rewrite bind_cons, decide_True by done. f_equal. apply bind_cond. intros i Hi. by rewrite decide_False by (by intros ->).
Qed.
Lemma window_together ds parts w : whole_days ds parts → NoDup w → together (tl_date <$> (window parts w ≫= group_lines)).
Proof.
  intros (Hds & Hlen & Hd). induction w as [|k w IH]; intros Hnd; [by intros i j n d _ _ Hi|].
  apply NoDup_cons in Hnd as [Hk Hnd]. change (window parts (k :: w)) with (default [] (parts !! k) ++ window parts w).
  specialize (IH Hnd). rewrite bind_app, fmap_app. set (A := tl_date <$> (default [] (parts !! k) ≫= group_lines)) in *.
  assert (∀ i x, A !! i = Some x → ∃ d, x = Some d ∧ ds !! k = Some d) as HA.
  { intros i x Hi%elem_of_list_lookup_2. unfold A in Hi. apply elem_of_list_fmap in Hi as (l & -> & (g & Hl & Hg)%elem_of_list_bind).
    destruct (parts !! k) as [D|] eqn:ED; [|by apply elem_of_nil in Hg].
    assert (k < length ds) as [d0 Hd0]%lookup_lt_is_Some by (apply lookup_lt_Some in ED; lia). exists d0. split; [|done]. by eapply Hd. }
  assert (∀ i x, (tl_date <$> (window parts w ≫= group_lines)) !! i = Some x → ∃ k' d, x = Some d ∧ ds !! k' = Some d ∧ k' ∈ w) as HB.
  { intros i x Hi%elem_of_list_lookup_2. apply elem_of_list_fmap in Hi as (l & -> & (g & Hl & Hg)%elem_of_list_bind).
    apply elem_window in Hg as (k' & D & Hk' & HD & Hg).
    assert (k' < length ds) as [d0 Hd0]%lookup_lt_is_Some by (apply lookup_lt_Some in HD; lia). exists k', d0. split_and!; [|done|done]. by eapply Hd. }
  intros i j n x Hij Hjn Hi Hn. apply lookup_app_Some in Hi as [Hi|[Hi0 Hi]], Hn as [Hn|[Hn0 Hn]].
  - assert (j < length A) as [x' Hj]%lookup_lt_is_Some by (apply lookup_lt_Some in Hn; lia). rewrite lookup_app_l by (by eapply lookup_lt_Some).
    rewrite Hj. destruct (HA _ _ Hj) as (d & -> & E1), (HA _ _ Hi) as (d' & -> & E2). congruence.
  - destruct (HA _ _ Hi) as (d & -> & E1), (HB _ _ Hn) as (k' & d' & E & E2 & Hk'). injection E as <-.
    assert (k = k') as -> by exact (NoDup_lookup _ _ _ _ Hds E1 E2). done.
  - apply lookup_lt_Some in Hn. lia.
  - rewrite lookup_app_r by lia. by apply (IH (i - length A) _ (n - length A)); [lia..| |].
Qed.
Lemma together_unplaced gs : tl_date <$> (gs ≫= group_lines) = tl_date <$> ((unplaced_group <$> gs) ≫= group_lines).
Proof.
  induction gs as [|g gs IH]; [done|]. rewrite fmap_cons, !bind_cons, !fmap_app, IH. f_equal.
  rewrite group_lines_unplaced, <- list_fmap_compose. done.
Qed.
Lemma pdf_ok E ho o doc ns ts ls skip gs : hash_order_ok ho → env_ok E → (∀ t, t ∈ ts → str_ok (t_description t)) →
  pdf_import E ho o doc = Ok (ns, ts) → statement_lines E doc ls → grouped ls skip gs → together (tl_date <$> (gs ≫= group_lines)) →
  ¬ pdf_collides ts (sequence None 0 gs) → journal_ok (as_merged ts).
Proof.
  intros Hho HE Htx Him Hls Hg Ht Hcol. split_and!.
  - intros p Hp. by apply (pdf_mergeable E ho o doc ns ts).
  - intros i j p q Hi Hj Hsh. destruct (decide (i = j)) as [|Hij]; [done|]. destruct Hcol. by apply (c76 E ho o doc ns ts ls skip gs i j p q).
  - intros tp (t & -> & Hin)%elem_of_list_fmap. destruct (pdf_sides _ _ _ _ _ _ t Hho Him Hin) as (p1 & p2 & E' & _). cbn. by rewrite E'.
Qed.
Lemma statement_gives E o name parts w ts : pdf_statement E o name parts w ts →
  ∃ ho ns, hash_order_ok ho ∧ make_namespace o name = Ok ns ∧ gives E ho ns None 0 (window parts w) ts.
Proof.
  intros (_ & ho & doc & ns & ls & skip & gs & Hho & Hn & Hls & Hg & Hw & Him).
  pose proof Him as (name' & ls' & skip' & gs' & Hn' & Hns & Hls' & Hg' & Hgv)%import_lines.
  apply account_spec in Hn'. pose proof (account_fun _ _ _ Hn Hn') as <-. pose proof (statement_fun' _ _ _ _ Hls Hls') as <-.
  destruct (grouping_fun _ _ _ _ _ Hg Hg') as [<- <-]. exists ho, ns. split_and!; [done|done|]. rewrite <- Hw. by apply gives_unplaced.
Qed.
Lemma gives_dates E ho ns prev n gs ts : gives E ho ns prev n gs ts → (λ t, Some (t_date t)) <$> ts = tl_date ∘ fst <$> gs.
Proof.
  revert prev n ts. induction gs as [|g gs IH]; intros prev n [|t ts]; cbn [gives]; try done.
  intros (b & _ & (d & a & ty & es & bs & (Hd & _) & _ & _ & ->) & Ht & Hg). rewrite !fmap_cons. f_equal; [|by eapply IH].
  apply build_trn_shape in Ht as (_ & _ & c1 & c2 & -> & _). cbn. by rewrite Hd.
Qed.

Lemma pdf_pieces E o name ds parts ws tss seen ts :
  env_ok E → whole_days ds parts → Forall2 (pdf_statement E o name parts) ws tss →
  covers ws seen → pdf_statement E o name parts seen ts → (∀ t, t ∈ ts → str_ok (t_description t)) →
  ¬ pdf_collides ts (sequence None 0 (window parts seen)) →
  ∃ f, as_merged ts = seen ≫= f ∧ as_merged <$> tss = (λ w, w ≫= f) <$> ws ∧ journal_ok (seen ≫= f) ∧
    (∀ i k a b, i ∈ seen → k ∈ seen → a ∈ f i → b ∈ f k → tp_date a = tp_date b ↔ i = k) ∧ Forall NoDup ws.
Proof.
  intros HE Hd Hws Hcov Hst Htx Hcol. pose proof (statement_gives _ _ _ _ _ _ Hst) as (ho0 & ns & Hho0 & Hns & Hg).
  destruct Hst as (Hnd & ho & doc & ns' & ls & skip & gs & Hho & Hn & Hls & Hgr & Hw & Him).
  destruct (gives_split _ _ _ ds parts seen ts Hd Hnd Hg) as (f & Hfk & Ets).
  exists (λ k, as_merged (f k)). rewrite <- as_merged_bind, <- Ets. split; [done|].
  split.
  { assert (∀ w, w ∈ ws → ∀ k, k ∈ w → k ∈ seen) as Hsub by (intros w Hw' k Hk; apply Hcov; eauto).
    clear -Hws Hsub Hfk Hd Hho0 Hns. induction Hws as [|w tw ws tss Hw Hws IH]; [done|]. rewrite !fmap_cons. f_equal.
    - pose proof (statement_gives _ _ _ _ _ _ Hw) as (how & nsw & Hhow & Hnsw & Hgw). destruct Hw as [Hndw _].
      rewrite Hns in Hnsw. apply Ok_inj in Hnsw as <-.
      destruct (gives_split _ _ _ ds parts w tw Hd Hndw Hgw) as (g & Hgk & ->). rewrite as_merged_bind. apply bind_cond. intros k Hk. f_equal.
      eapply (gives_fun _ how ho0); [done..|by apply Hgk|]. apply Hfk. eapply Hsub; [left|done].
    - apply IH. intros w' Hw'. apply Hsub. by right. }
  split; [|split].
  - eapply (pdf_ok E ho o doc ns' ts ls skip gs); try done.
    + rewrite together_unplaced, Hw. by eapply window_together.
    + by rewrite <- sequence_unplaced, Hw.
  - intros i k a b Hi Hk (t & -> & Ht)%elem_of_list_fmap (t' & -> & Ht')%elem_of_list_fmap. rewrite !date_merged.
    destruct Hd as (Hds & Hlen & Hd).
    assert (∀ k t, k ∈ seen → t ∈ f k → ds !! k = Some (t_date t)) as Hr.
    { clear -Hfk Hd Hlen. intros k t Hk Ht. pose proof (gives_dates _ _ _ _ _ _ _ (Hfk k Hk)) as E'.
      pose proof (elem_of_list_fmap_1 (λ t, Some (t_date t)) (f k) t Ht) as Hin. rewrite E' in Hin.
      apply elem_of_list_fmap in Hin as (g & Eg & Hg). destruct (parts !! k) as [D|] eqn:ED; [|by apply elem_of_nil in Hg].
      assert (k < length ds) as [d0 Hd0]%lookup_lt_is_Some by (apply lookup_lt_Some in ED; lia).
      rewrite Hd0. cbn in Eg. rewrite Eg. symmetry. eapply (Hd k d0 D g); try done. left. }
    pose proof (Hr i t Hi Ht) as H1. pose proof (Hr k t' Hk Ht') as H2. split; [|by intros ->; congruence].
    intros E'. rewrite E' in H1. exact (NoDup_lookup _ _ _ _ Hds H1 H2).
  - apply Forall_forall. intros w [i Hi]%elem_of_list_lookup. destruct (Forall2_lookup_l _ _ _ _ _ Hws Hi) as (tw & _ & Hw'). apply Hw'.
Qed.
Lemma pdf_overlaps E o name ds parts ws tss seen ts hos :
  env_ok E → whole_days ds parts → Forall2 (pdf_statement E o name parts) ws tss →
  covers ws seen → pdf_statement E o name parts seen ts → (∀ t, t ∈ ts → str_ok (t_description t)) →
  ¬ pdf_collides ts (sequence None 0 (window parts seen)) →
  length hos = length ws → Forall hash_order_ok hos →
  ∃ m, clean_run merger_new (zip hos (as_merged <$> tss)) m ∧
    ∀ ho, hash_order_ok ho → build ho m = Ok (stable_sort (by_key tp_date) (as_merged ts)).
Proof.
  intros HE Hd Hws Hcov Hst Htx Hcol Hlen Hhos. destruct (pdf_pieces E o name ds parts ws tss seen ts) as (f & -> & -> & Hok & Hda & Hnd); try done.
  by apply pieces_merge.
Qed.

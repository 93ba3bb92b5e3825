(** Laws of running the importers. *)
From stdpp Require Import gmap list pretty sorting.
From Verif Require Import MergeClaims.
From Verif Require Import Base Types SpecBase BaseProofs StrProofs CommentModel MergeModel CmdModel Sha1 FingerprintModel NwCsvModel
  OcrModel OcrProofs PdfModel CmdClaims CmdProofs FingerprintLaws ImporterModel ImporterClaims.
From Coq Require Import Lia.
Local Open Scope nat_scope.

(** * Pages *)
Lemma pretty_go_first x s : (0 < x)%N → ∃ c r, s2l (pretty_N_go x s) = c :: r ∧ c ≠ 48%N.
Proof.
  revert s. induction (N.lt_wf_0 x) as [x _ IH]. intros s Hx. rewrite pretty_N_go_step by done.
  destruct (decide (x < 10)%N) as [Hs|Hs].
  - rewrite N.div_small by done. rewrite pretty_N_go_0. rewrite s2l_String. eexists _, _. split; [done|].
    rewrite N.mod_small by done. assert (x ≠ 0%N) as H0 by lia. clear -H0.
    destruct x as [|p]; [done|]. unfold pretty_N_char. repeat case_match; vm_compute; discriminate.
  - apply IH; [apply N.div_lt; lia|]. apply N.div_str_pos. lia.
Qed.
Lemma pretty_first k : 0 < k → ∃ c r, s2l (pretty k) = c :: r ∧ c ≠ 48%N.
Proof.
  intros Hk. unfold pretty, pretty_nat, pretty, pretty_N. case_match; [lia|]. apply pretty_go_first. lia.
Qed.
Lemma page_digits_inj i k : (if i <? 10 then s2l "0" else []) ++ s2l (pretty i) = (if k <? 10 then s2l "0" else []) ++ s2l (pretty k) → i = k.
Proof.
  intros H. destruct (i <? 10) eqn:Ei; destruct (k <? 10) eqn:Ek.
  - apply app_inv_head in H. apply s2l_inj in H. by apply (inj pretty) in H.
  - apply Nat.ltb_ge in Ek. destruct (pretty_first k) as (c & r & Hc & Hne); [lia|]. simpl in H. rewrite Hc in H. injection H as H _. done.
  - apply Nat.ltb_ge in Ei. destruct (pretty_first i) as (c & r & Hc & Hne); [lia|]. simpl in H. rewrite Hc in H. injection H as H _. done.
  - simpl in H. apply s2l_inj in H. by apply (inj pretty) in H.
Qed.
Global Instance page_name_inj : Inj (=) (=) page_name.
Proof.
  intros i k H. unfold page_name in H. apply app_inv_head in H. rewrite !app_assoc in H. apply app_inv_tail in H. by apply page_digits_inj.
Qed.
Lemma page_name_no_nl i : NL ∉ page_name i.
Proof.
  unfold page_name. rewrite !not_elem_of_app. split_and!; [vm_compute; set_solver| |intros H|vm_compute; set_solver].
  - destruct (i <? 10); vm_compute; set_solver.
  - apply (pretty_N_digits (N.of_nat i)) in H. unfold digit_char, NL in H. lia.
Qed.
Lemma page_name_png i : page_png (page_name i) = true.
Proof.
  unfold page_png, page_name. rewrite !app_length. apply andb_true_iff. split; [apply andb_true_iff; split|].
  - apply Nat.leb_le. change (length (s2l "page-")) with 5. change (length (s2l ".png")) with 4. lia.
  - done.
  - unfold ends_with. rewrite !reverse_app. rewrite <- !app_assoc. done.
Qed.
Lemma page_name_not_list i : page_name i ≠ PNG_LIST.
Proof. unfold page_name. intros H. vm_compute in H. discriminate H. Qed.

Definition page_files (pages : list str) : tmpfiles := list_to_map (imap (λ i g, (page_name i, g)) pages).
Lemma imap_fst_seq (pages : list str) k : (imap (λ i g, (page_name (k + i), g)) pages).*1 = page_name <$> seq k (length pages).
Proof.
  revert k. induction pages as [|g pages IH]; intros k; [done|]. cbn [imap length seq]. rewrite !fmap_cons. f_equal.
  - cbn [fst]. f_equal. lia.
  - rewrite <- (IH (S k)). f_equal. apply imap_ext. intros i x _. unfold compose. do 2 f_equal. lia.
Qed.
Lemma page_files_nodup (pages : list str) : NoDup (imap (λ i g, (page_name i, g)) pages).*1.
Proof. change (λ i (g : str), (page_name i, g)) with (λ i (g : str), (page_name (0 + i), g)). rewrite imap_fst_seq. apply NoDup_fmap_2; [apply _|]. apply NoDup_seq. Qed.
Lemma page_files_lookup pages i g : pages !! i = Some g → page_files pages !! page_name i = Some g.
Proof.
  intros H. apply elem_of_list_to_map; [apply page_files_nodup|]. apply elem_of_lookup_imap. eauto.
Qed.
Lemma glob_order ho pages : hash_order_ok ho → ∃ order, order ≡ₚ seq 0 (length pages) ∧
  glob_pages ho (page_files pages) = page_name <$> order ∧
  StronglySorted (λ a b, str_leb a b = true) (page_name <$> order).
Proof.
  intros (_ & _ & Hho).
  assert (filter (λ n, page_png n = true) (ho_strs ho _ (page_files pages)).*1 ≡ₚ page_name <$> seq 0 (length pages)) as Hp.
  { rewrite (Hho _ (page_files pages)). unfold page_files. rewrite map_to_list_to_map by apply page_files_nodup.
    change (λ i (g : str), (page_name i, g)) with (λ i (g : str), (page_name (0 + i), g)). rewrite imap_fst_seq.
    rewrite filter_all'; [done|]. intros n (i & -> & _)%elem_of_list_fmap. apply page_name_png. }
  unfold glob_pages. assert (Hs := stable_sort_perm str_leb (filter (λ n, page_png n = true) (ho_strs ho _ (page_files pages)).*1)).
  destruct (Permutation_map_inv _ _ (Permutation_trans Hs Hp)) as (order & E & Ho). exists order. split; [done|]. split; [done|].
  change (page_name <$> order) with (map page_name order). rewrite <- E. apply stable_sort_sorted; [apply str_leb_total|apply str_leb_trans].
Qed.
Lemma sorted_check l : (fix go (l : list str) := match l with a :: (b :: _) as t => str_leb a b && go t | _ => true end) l = true →
  StronglySorted (λ a b, str_leb a b = true) l.
Proof.
  intros H. apply Sorted_StronglySorted. { intros a b c. apply str_leb_trans. }
  induction l as [|a [|b l] IH]; [constructor|by constructor; constructor|]. apply andb_true_iff in H as [H1 H2].
  constructor; [by apply IH|]. by constructor.
Qed.
Lemma hundred_sorted : StronglySorted (λ a b, str_leb a b = true) (page_name <$> seq 0 100).
Proof. apply sorted_check. vm_compute. reflexivity. Qed.
Lemma sorted_app_l {A} (R : A → A → Prop) a b : StronglySorted R (a ++ b) → StronglySorted R a.
Proof.
  induction a as [|x a IH]; intros H; [constructor|]. simpl in H. apply StronglySorted_inv in H as [H1 H2]. constructor; [by apply IH|].
  by apply Forall_app in H2 as [? _].
Qed.
Lemma sorted_mid {A} (R : A → A → Prop) p x q y r : StronglySorted R (p ++ x :: q ++ y :: r) → R x y.
Proof.
  induction p as [|z p IH]; intros H; simpl in H; apply StronglySorted_inv in H as [H1 H2]; [|by apply IH].
  rewrite Forall_forall in H2. apply H2. apply elem_of_app. right. left.
Qed.
Lemma pages_in_order order n : order ≡ₚ seq 0 n → StronglySorted (λ a b, str_leb a b = true) (page_name <$> order) → n ≤ 100 → order = seq 0 n.
Proof.
  intros Hp Hs Hn. apply (inj (fmap page_name)). apply (sorted_perm_unique str_leb); [apply str_leb_antisym|done| |by apply fmap_Permutation].
  assert (H := hundred_sorted). replace 100 with (n + (100 - n)) in H by lia.
  rewrite seq_app, fmap_app in H. by apply sorted_app_l in H.
Qed.
Lemma pages_out_of_order order n : order ≡ₚ seq 0 n → StronglySorted (λ a b, str_leb a b = true) (page_name <$> order) → 100 < n →
  ∃ a b c, order = a ++ 100 :: b ++ 11 :: c.
Proof.
  intros Hp Hs Hn. assert (100 ∈ order) as H100 by (rewrite Hp; apply elem_of_seq; lia).
  assert (11 ∈ order) as H11 by (rewrite Hp; apply elem_of_seq; lia).
  apply elem_of_list_split in H100 as (a & r & ->). apply elem_of_app in H11 as [H11|H11].
  - exfalso. apply elem_of_list_split in H11 as (a1 & a2 & ->). rewrite <- app_assoc in Hs. rewrite fmap_app in Hs. cbn [app] in Hs.
    rewrite fmap_cons, fmap_app, fmap_cons in Hs. apply sorted_mid in Hs as Hbad.
    vm_compute in Hbad. discriminate.
  - apply elem_of_cons in H11 as [H11|H11]; [done|]. apply elem_of_list_split in H11 as (b & c & ->). eauto.
Qed.

(** * Running the programs *)
Lemma list_text_alt T names : list_text T names = names ≫= λ n, ot_dir T ++ s2l "/" ++ n ++ [10%N].
Proof. unfold list_text, in_dir. induction names as [|n names IH]; [done|]. rewrite !bind_cons, IH. by rewrite <- !app_assoc. Qed.
Lemma ocr_pages T ho pages recs : hash_order_ok ho → tmp_works T → renders T pages → recognises T recs →
  ∃ order, order ≡ₚ seq 0 (length pages) ∧ StronglySorted (λ a b, str_leb a b = true) (page_name <$> order) ∧
    ocr_document T ho = from_tsv (Some <$> mjoin (imap recs (omap (λ i, pages !! i) order))).
Proof.
  intros Hho [Ht Hl] [st Hr] Hrec. destruct (glob_order ho pages Hho) as (order & Hp & Hg & Hs). exists order. split; [done|]. split; [done|].
  unfold ocr_document. rewrite Ht, Hr, Hl. change (list_to_map (imap (λ i g, (page_name i, g)) pages)) with (page_files pages). rewrite Hg.
  destruct (Hrec (<[PNG_LIST := list_text T (page_name <$> order)]> (page_files pages)) (page_name <$> order) (omap (λ i, pages !! i) order))
    as (st' & d' & text & -> & Htsv & Htext); [| |change (s2l "ocr.tsv") with OCR_OUTPUT in Htsv; by rewrite Htsv, Htext].
  - etrans; [apply (lookup_insert (M := gmap str))|]. by rewrite list_text_alt.
  - assert (Forall (λ i, i < length pages) order) as Hlt.
    { apply Forall_forall. intros i Hi. rewrite Hp in Hi. apply elem_of_seq in Hi. lia. }
    clear -Hlt. generalize (list_text T (page_name <$> order)). intros txt. induction Hlt as [|i order Hi Hlt IH]; [constructor|].
    apply lookup_lt_is_Some in Hi as [g Hg]. cbn [omap list_omap]. rewrite Hg. rewrite fmap_cons. constructor; [|done]. split; [apply page_name_no_nl|].
    etrans; [apply (lookup_insert_ne (M := gmap str)); intros Hn; symmetry in Hn; revert Hn; apply page_name_not_list|]. by apply page_files_lookup.
Qed.
Lemma omap_lookup_seq {A} (l : list A) : omap (λ i, l !! i) (seq 0 (length l)) = l.
Proof.
  induction l as [|x l IH] using rev_ind; [done|]. rewrite app_length. cbn [length]. rewrite seq_app, omap_app. cbn [seq omap list_omap].
  rewrite list_lookup_middle by done. f_equal. rewrite <- IH at 2. apply list_omap_ext. apply Forall2_same_length_lookup_2; [done|].
  intros k i i' Hi Hi'. assert (i = i') as -> by congruence. apply lookup_seq in Hi' as [-> Hk]. by rewrite lookup_app_l.
Qed.
Lemma c95_in_order T ho pages recs : hash_order_ok ho → tmp_works T → renders T pages → recognises T recs → length pages ≤ 100 →
  ocr_document T ho = from_tsv (Some <$> mjoin (imap recs pages)).
Proof.
  intros Hho Ht Hr Hrec Hn. destruct (ocr_pages T ho pages recs Hho Ht Hr Hrec) as (order & Hp & Hs & ->).
  rewrite (pages_in_order _ _ Hp Hs Hn). by rewrite omap_lookup_seq.
Qed.
Lemma c95_more T ho pages recs : hash_order_ok ho → tmp_works T → renders T pages → recognises T recs → 100 < length pages →
  ∃ order, order ≡ₚ seq 0 (length pages) ∧ (∃ a b c, order = a ++ 100 :: b ++ 11 :: c) ∧
    ocr_document T ho = from_tsv (Some <$> mjoin (imap recs (omap (λ i, pages !! i) order))).
Proof.
  intros Hho Ht Hr Hrec Hn. destruct (ocr_pages T ho pages recs Hho Ht Hr Hrec) as (order & Hp & Hs & E).
  exists order. split; [done|]. split; [by eapply pages_out_of_order|done].
Qed.

(** * Exit status *)
Lemma c96_ignored T T' ho : same_but_status T T' → ocr_document T' ho = ocr_document T ho.
Proof.
  intros (Hd & Ht & Hl & Hv & Hc & Hs). unfold ocr_document. rewrite Ht, Hl, Hv. destruct (ot_tempdir T); [done|].
  specialize (Hc ∅). destruct (ot_convert T ∅) as [[st d]|], (ot_convert T' ∅) as [[st' d']|]; try done. injection Hc as ->.
  destruct (ot_list T); [done|]. replace (list_text T' (glob_pages ho d)) with (list_text T (glob_pages ho d))
    by (unfold list_text, in_dir; by rewrite Hd).
  specialize (Hs (<[PNG_LIST := list_text T (glob_pages ho d)]> d)).
  destruct (ot_tesseract T _) as [[st1 d1]|], (ot_tesseract T' _) as [[st1' d1']|]; try done. by injection Hs as ->.
Qed.
Lemma c96_fails E X T ho o output substitute make w :
  (ot_convert T ∅ = None ∨ (∀ d, ot_tesseract T d = None) ∨
   (∀ d st d', ot_tesseract T d = Some (st, d') → d' !! s2l "ocr.tsv" = None)) →
  import_cmd E (pdf_importer X T ho o) output substitute make w = ([], Err EIo).
Proof.
  intros H. assert (ocr_document T ho = Err EIo) as Ho.
  { unfold ocr_document. destruct (ot_tempdir T); [done|]. destruct (ot_convert T ∅) as [[st d]|]; [|done]. destruct (ot_list T); [done|].
    destruct (ot_tesseract T _) as [[st' d']|] eqn:E'; [|done]. destruct H as [H|[H|H]]; [done|by rewrite H in E'|].
    apply H in E'. change (s2l "ocr.tsv") with OCR_OUTPUT in E'. by rewrite E'. }
  unfold import_cmd, pdf_importer, io_bind, io_of. by rewrite Ho.
Qed.

(** * Options *)
Lemma str_eqb_eq a b : str_eqb a b = true ↔ a = b.
Proof. apply bool_decide_eq_true. Qed.
Lemma str_eqb_refl a : str_eqb a a = true.
Proof. by apply str_eqb_eq. Qed.
Lemma starts_with_iff p s : starts_with p s = true ↔ ∃ x, s = p ++ x.
Proof.
  revert s. induction p as [|a p IH]; intros s; [split; [eauto|done]|]. destruct s as [|b s]; cbn [starts_with].
  - split; [done|by intros [x H]].
  - rewrite andb_true_iff, N.eqb_eq, IH. split; [intros [-> [x ->]]; by exists x|intros [x [= -> ->]]; eauto].
Qed.
Lemma c97_filespec s : (filespec_of s = Stdio ↔ s = s2l "-") ∧ ∀ p, filespec_of s = Path p ↔ s = p ∧ s ≠ s2l "-".
Proof.
  unfold filespec_of. destruct (str_eqb s (s2l "-")) eqn:E; [apply str_eqb_eq in E as ->|].
  - split; [done|]. intros p. split; [done|]. by intros [_ H].
  - assert (s ≠ s2l "-") as Hne by (intros ->; by rewrite str_eqb_refl in E). split; [split; [done|by intros ->]|]. intros p. split; [intros [= ->]; done|by intros [-> _]].
Qed.
Lemma c97 E ron s w es o : fp_namespace_of E ron s w = (es, Ok o) ↔
  (s = s2l "account-name" ∧ o = NsAccountName ∧ es = []) ∨
  (s = s2l "generated" ∧ o = NsGenerated ∧ es = []) ∨
  (∃ x, s = s2l "fixed:" ++ x ∧ o = NsFixed x ∧ es = []) ∨
  (∃ p text t, s = s2l "lookup:" ++ p ∧ read_file E (if decide (p = s2l "-") then Stdio else Path p) w = (es, Ok text) ∧
     ron text = Some t ∧ o = NsLookup t).
Proof.
  unfold fp_namespace_of. destruct (str_eqb s (s2l "account-name")) eqn:E1; [apply str_eqb_eq in E1 as ->|].
  { split; [intros [= <- <-]; auto|]. intros [(_ & -> & ->)|[(? & _)|[(x & ? & _)|(p & t & t' & ? & _)]]]; done. }
  assert (s ≠ s2l "account-name") as N1 by (intros ->; by rewrite str_eqb_refl in E1).
  destruct (str_eqb s (s2l "generated")) eqn:E2; [apply str_eqb_eq in E2 as ->|].
  { split; [intros [= <- <-]; auto|]. intros [(? & _)|[(_ & -> & ->)|[(x & ? & _)|(p & t & t' & ? & _)]]]; done. }
  assert (s ≠ s2l "generated") as N2 by (intros ->; by rewrite str_eqb_refl in E2).
  destruct (starts_with (s2l "fixed:") s) eqn:E3.
  { apply starts_with_iff in E3 as [x ->]. rewrite drop_app. split; [intros [= <- <-]; eauto 10|].
    intros [(? & _)|[(? & _)|[(y & Hy & -> & ->)|(p & t & t' & ? & _)]]]; [done|done| |done]. apply app_inv_head in Hy as ->. done. }
  destruct (starts_with (s2l "lookup:") s) eqn:E4.
  { apply starts_with_iff in E4 as [p ->]. rewrite drop_app. unfold io_bind.
    replace (filespec_of p) with (if decide (p = s2l "-") then Stdio else Path p).
    2:{ unfold filespec_of. case_decide as Hd; [subst; by rewrite str_eqb_refl|]. destruct (str_eqb p (s2l "-")) eqn:Ep; [by apply str_eqb_eq in Ep|done]. }
    destruct (read_file E _ w) as [es1 r1] eqn:Er. split.
    - destruct r1 as [text|e|]; [|done..]. unfold io_of. destruct (ron text) as [t|] eqn:Et; [|done]. intros [= <- <-]. rewrite app_nil_r.
      right. right. right. exists p, text, t. by rewrite Er.
    - intros [(? & _)|[(? & _)|[(y & ? & _)|(p' & text & t & Hp & Hr & Ht & ->)]]]; [done|done|done|]. apply app_inv_head in Hp as <-.
      rewrite Er in Hr. injection Hr as -> ->. unfold io_of. rewrite Ht. by rewrite app_nil_r. }
  split; [done|]. intros [(? & _)|[(? & _)|[(x & -> & _)|(p & t & t' & -> & _)]]]; [done|done| |].
  - assert (starts_with (s2l "fixed:") (s2l "fixed:" ++ x) = true) by (apply starts_with_iff; eauto). congruence.
  - assert (starts_with (s2l "lookup:") (s2l "lookup:" ++ p) = true) by (apply starts_with_iff; eauto). congruence.
Qed.

(** What imported postings carry besides fingerprints (C102). *)
From Verif Require Import MergeClaims.
From Verif Require Import Base Types SpecBase BaseProofs StrProofs CommentModel Sha1 FingerprintModel NwCsvModel TzModel
  PaypalModel CommentClaims CommentProofs CommentLaws CommentTextClaims CommentText FingerprintClaims FingerprintProofs FingerprintLaws
  ImportClaims ImportProofs ImportRows ImportLaws ImportPaypal OcrModel PdfModel PdfClaims PdfTable PdfFold PdfLaws DetailClaims.
From Coq Require Import Lia Ascii String.
From stdpp Require Import pretty.
Local Open Scope nat_scope.

(** ** Reading back the values of a comment without text *)
Lemma value_line_pair k k' v : key_ok k' → newline ∉ v → value_line k (k' ++ [COLON; SPACE] ++ trim v) → k = k' ∧ trim v ≠ [].
Proof.
  intros (Hk' & Htk & _) Hn (Hk & sp & tail & Hsp & E & Ht).
  assert (sp = []) as ->.
  { destruct sp as [|c sp]; [done|]. pose proof (Hsp c ltac:(left)) as ->. destruct Hk' as [Hne Hc]. destruct k' as [|d k']; [done|].
    injection E as -> _. by destruct (Hc space ltac:(left)). }
  cbn [app] in E. change COLON with colon in *. apply name_prefix_inj in E as [<- <-]; [|done..]. split; [done|]. intros Ev. rewrite Ev in Ht.
  destruct Ht as [?|(sp' & w & E2 & Hs' & Hne & Hw)]; [done|]. destruct sp' as [|c sp']; [done|]. injection E2 as _ E2. symmetry in E2.
  apply app_eq_nil in E2 as [_ ?]. done.
Qed.
Lemma made_shape (P : Prop) c ts : P → made P c ts → parsed_shape c.
Proof.
  intros HP (H1 & H2 & H3 & H4). constructor.
  - intros t Ht%H2. by apply H3.
  - intros l. rewrite H1. intros H. by apply elem_of_nil in H.
  - intros k v [(? & _ & ?) _]%H4. done.
  - intros k v [_ ?]%H4. auto.
Qed.
(** The value tags that are not blank. *)
Definition kept (v : str) : option str := if decide (trim v = []) then None else Some (trim v).
Lemma made_values (P : Prop) c ts ho k : hash_order_ok ho → P → made P c ts →
  value_tags (from_opt_comment (into_opt_comment ho c)) !! k = value_tags c !! k ≫= kept.
Proof.
  intros Hho HP Hm. pose proof (made_shape P c ts HP Hm) as Hs. destruct Hm as (H1 & H2 & H3 & H4).
  assert (∀ k v, value_tags c !! k = Some v → tag_name k ∧ trim k = k ∧ newline ∉ k ∧ newline ∉ v) as Hg.
  { intros k' v' [(? & ? & ?) ?]%H4. auto. }
  assert (is_Some (value_tags (from_opt_comment (into_opt_comment ho c)) !! k) → ∃ v, value_tags c !! k = Some v ∧ trim v ≠ []) as Hback.
  { pose proof (formatted_lines ho c Hho Hs) as Hl. destruct (into_opt_comment ho c) as [s|]; [|by intros [? ?]].
    intros Hk. apply keys_exact in Hk as (l & Hl' & Hv). cbn [text_lines] in Hl. rewrite Hl, H1 in Hl'. apply elem_of_app in Hl' as [Hl'|Hl'].
    - cbn [format_lines] in Hl'. rewrite format_tags_runs in Hl'. apply elem_of_list_fmap in Hl' as (r & -> & _).
      destruct Hv as (Hk & sp & tail & Hsp & E & _). exfalso. destruct sp as [|c' sp].
      + destruct Hk as [Hne Hc]. destruct k as [|d k]; [done|]. injection E as <- _. by destruct (Hc COLON ltac:(left)).
      + injection E as <- _. by specialize (Hsp COLON ltac:(left)).
    - unfold format_values in Hl'. apply elem_of_list_fmap in Hl' as ([k' v'] & -> & Hp). apply (sorted_values_spec ho _ Hho) in Hp. cbn [fst snd] in Hp.
      pose proof (H4 _ _ Hp) as [Hk' Hn]. pose proof Hk' as (_ & Htk & _). rewrite Htk in Hv. apply value_line_pair in Hv as [-> Hv]; [|done|auto]. eauto. }
  destruct (value_tags c !! k) as [v|] eqn:E.
  - cbn [mbind option_bind]. unfold kept. destruct (decide (trim v = [])) as [Hb|Hb].
    + destruct (value_tags (from_opt_comment (into_opt_comment ho c)) !! k) as [w|]; [|done].
      destruct Hback as (v' & Ev & Hv'); [by eexists|]. congruence.
    + by apply values_survive.
  - destruct (value_tags (from_opt_comment (into_opt_comment ho c)) !! k) as [w|]; [|done].
    destruct Hback as (v' & Ev & _); [by eexists|]. congruence.
Qed.

(** ** Comments with given tags and values *)
Definition made_v (P : Prop) (c : comment) (ts : list str) (vs : list (str * str)) : Prop :=
  made P c ts ∧ value_tags c = list_to_map vs.
Lemma made_v_new P : made_v P comment_new [] [].
Proof. split; [apply made_new|done]. Qed.
Lemma made_v_tag P c ts vs t : tag_ok t → made_v P c ts vs → made_v P (with_tag t c) (t :: ts) vs.
Proof. intros Ht [H1 H2]. split; [by apply made_tag|done]. Qed.
Lemma made_v_value (P : Prop) c ts vs k v : key_ok k → (P → newline ∉ v) → made_v P c ts vs → made_v P (with_value_tag k v c) ts ((k, v) :: vs).
Proof.
  intros Hk Hv [H1 H2]. split; [by apply made_value|]. unfold with_value_tag, set_value_tags. cbn [value_tags]. rewrite H2. done.
Qed.
Lemma made_v_opt_tag P c ts vs t : (∀ x, t = Some x → tag_ok x) → made_v P c ts vs →
  made_v P (with_option_tag t c) (from_option (λ x, [x]) [] t ++ ts) vs.
Proof. intros Ht [H1 H2]. split; [by apply made_opt_tag|]. by destruct t. Qed.
Lemma made_v_opt_value (P : Prop) c ts vs k v : key_ok k → (∀ x, v = Some x → P → newline ∉ x) → made_v P c ts vs →
  made_v P (with_option_value_tag k v c) ts (optional k v ++ vs).
Proof.
  intros Hk Hv [H1 H2]. split; [by apply made_opt_value|]. destruct v as [v|]; [|done]. unfold with_option_value_tag, with_value_tag, set_value_tags. cbn [value_tags optional app].
  rewrite H2. done.
Qed.
Lemma made_v_perm P c ts ts' vs : (∀ t : str, t ∈ ts ↔ t ∈ ts') → made_v P c ts vs → made_v P c ts' vs.
Proof. intros H [H1 H2]. split; [by eapply made_perm|done]. Qed.

Lemma made_v_values (P : Prop) c ts vs ho a k am b st : hash_order_ok ho → P → made_v P c ts vs → NoDup (fst <$> vs) →
  values_are (Posting a k am b st (into_opt_comment ho c)) vs.
Proof.
  intros Hho HP [Hm Hv] Hd key v. cbn [posting_internal_of pi_comment p_comment]. rewrite (made_values P c ts ho key Hho HP Hm), Hv. unfold kept. split.
  - intros H. apply bind_Some in H as (x & Hx & H). apply elem_of_list_to_map in Hx; [|done]. exists x. destruct (decide (trim x = [])); [done|]. injection H as <-. done.
  - intros (x & Hx & -> & Hne). apply elem_of_list_to_map in Hx; [|done]. apply bind_Some. exists x. split; [done|]. by rewrite decide_False by done.
Qed.
Lemma made_v_tags (P : Prop) c vs ho a k am b st s fps : hash_order_ok ho → P → made_v P c (extra_tags s ++ fps) vs → (∀ f, f ∈ fps → fp_tag f) →
  other_tags_are (Posting a k am b st (into_opt_comment ho c)) (extra_tags s).
Proof.
  intros Hho HP [Hm _] Hf t Ht. unfold tagged, has_tag. cbn [posting_internal_of pi_comment p_comment].
  etransitivity; [by apply (made_exact P c _ ho t Hho HP Hm)|]. rewrite elem_of_app. split; [|by left]. intros [?|H%Hf]; done.
Qed.

(** ** Numbers *)
Lemma pretty_char_number x : (x < 10)%N → N_of_ascii (pretty_N_char x) = (48 + x)%N.
Proof.
  intros H. assert (x ∈ [0; 1; 2; 3; 4; 5; 6; 7; 8; 9]%N) as Hx by (rewrite !elem_of_cons; lia).
  rewrite !elem_of_cons in Hx. destruct_or! Hx; try (by subst). by apply elem_of_nil in Hx.
Qed.
Lemma number_app a b : number (a ++ b) = foldl (λ n c, 10 * n + (c - 48))%N (number a) b.
Proof. unfold number. by rewrite foldl_app. Qed.
Lemma pretty_go_numeral x : (0 < x)%N → ∀ s, ∃ ds, s2l (pretty_N_go x s) = ds ++ s2l s ∧ digits ds ∧ number ds = x ∧ head ds ≠ Some 48%N.
Proof.
  induction (N.lt_wf_0 x) as [x _ IH]. intros Hx s. rewrite pretty_N_go_step by done.
  pose proof (N.mod_lt x 10 ltac:(done)) as Hm. pose proof (N.div_mod x 10 ltac:(done)) as Hd.
  assert (s2l (String (pretty_N_char (x mod 10)) s) = [(48 + x mod 10)%N] ++ s2l s) as Es.
  { rewrite s2l_String. by rewrite pretty_char_number. }
  destruct (decide (x / 10 = 0)%N) as [E|E].
  - rewrite E, pretty_N_go_0, Es. eexists. split; [reflexivity|]. rewrite E, N.mul_0_r, N.add_0_l in Hd.
    split; [|split].
    + split; [done|]. intros c ->%elem_of_list_singleton. lia.
    + unfold number. cbn [foldl]. lia.
    + cbn [head]. intros [= H]. lia.
  - destruct (IH (x / 10)%N ltac:(apply N.div_lt; lia) ltac:(lia) (String (pretty_N_char (x mod 10)) s)) as (ds & E1 & [Hne Hds] & Hn & Hh).
    exists (ds ++ [(48 + x mod 10)%N]). rewrite E1, Es, app_assoc. split; [done|]. split; [|split].
    + split; [by destruct ds|]. intros c [Hc| ->%elem_of_list_singleton]%elem_of_app; [auto|lia].
    + rewrite number_app, Hn. cbn [foldl]. lia.
    + destruct ds; done.
Qed.
Lemma show_numeral n : numeral (show_Z (Z.of_nat n)) n.
Proof.
  unfold numeral, show_Z. destruct n as [|n].
  - split; [|by split]. split; [done|]. intros c Hc. change (c ∈ [48%N]) in Hc. apply elem_of_list_singleton in Hc as ->. lia.
  - assert (pretty (Z.of_nat (S n)) = pretty_N_go (N.of_nat (S n)) "") as ->.
    { done. }
    destruct (pretty_go_numeral (N.of_nat (S n)) ltac:(lia) "") as (ds & -> & Hd & Hn & Hh). change (s2l "") with (@nil char). rewrite app_nil_r. done.
Qed.
Lemma seq_value_text ns i s : seq_value ns (Z.of_nat i) = Ok s → sequence_text ns (S i) s.
Proof.
  unfold seq_value. case_match; [done|]. intros E. apply Ok_inj in E as <-. eexists. split; [|reflexivity].
  replace (Z.of_nat i + 1)%Z with (Z.of_nat (S i)) by lia. apply show_numeral.
Qed.

(** ** Nationwide rows *)
Definition row_vs (name : str) (r : nw_record) : list (str * str) :=
  match r with
  | Five r => optional LOCATION_TAG (match r5_location r with [] => None | l => Some l end) ++
      [(TRANSACTIONS_TAG, r5_transactions r); (BANK, BANK_NAME); (ACCOUNT, name)]
  | Six r => [(TRANSACTION_TYPE_TAG, r6_type r); (BANK, BANK_NAME); (ACCOUNT, name)]
  end.
Lemma row_postings_full ho r ns name i legacy p1 p2 :
  rec_form_postings ho r ns name i legacy = Ok (p1, p2) →
  ∃ a c1 c2 seq, seq_value ns i = Ok seq ∧ fp_part ns ∧
    p1 = Posting ASSETS_UNKNOWN Real (Some (PostingAmount a None None)) (row_bal r) None (into_opt_comment ho c1) ∧
    p2 = Posting (peer_account a) Real (Some (PostingAmount (negate_amount a) None None)) None None (into_opt_comment ho c2) ∧
    made_v (row_clean name r) c1 (extra_tags Self ++ row_fps legacy ns r a i Self) ((SEQ, seq) :: row_vs name r) ∧
    made_v (row_clean name r) c2 (extra_tags Peer ++ row_fps legacy ns r a i Peer) (row_vs name r).
Proof.
  destruct r as [r|r]; cbn [rec_form_postings paid_in paid_out].
  - unfold five_form_postings.
    destruct (self_amount_of _ _) as [a| |] eqn:Ea; cbn [rbind]; [|done|done].
    destruct (five_fingerprint_v1 r ns i) as [fp| |] eqn:Ef; cbn [rbind]; [|done|done].
    apply five_fp in Ef as [Hn ->].
    destruct (seq_value ns i) as [seq| |] eqn:Es; cbn [rbind]; [|done|done].
    intros E. apply Ok_pair_inj in E as [<- <-].
    pose proof (λ f s, row_fps_good legacy ns (Five r) a i s f Hn) as Hg.
    exists a. eexists _, _, seq. split_and!; [done|done|reflexivity|reflexivity|..].
    + eapply made_v_perm; [|apply made_v_tag; [apply tag_self|];
        apply made_v_value; [apply key_seq|intros _; by eapply seq_clean|];
        apply made_v_tag; [apply good_tag_ok, (Hg _ Self); left|];
        apply made_v_opt_value; [apply key_location| |];
        [|apply made_v_value; [apply key_transactions|intros (_&?&_); done|];
          apply made_v_value; [apply key_bank|intros _; apply bank_clean|];
          apply made_v_value; [apply key_account|intros (?&_); done|];
          apply made_v_tag; [apply tag_unknown|apply made_v_new]]].
      * cbn [fst]. intros t. unfold extra_tags, row_fps. rewrite !elem_of_cons, elem_of_app, !elem_of_cons. set_solver.
      * intros x Ex (_&_&Hl). destruct (r5_location r); by simplify_eq.
    + eapply made_v_perm; [|apply made_v_tag; [apply tag_peer|];
        apply made_v_tag; [apply good_tag_ok, (Hg _ Peer); left|];
        apply made_v_opt_value; [apply key_location| |];
        [|apply made_v_value; [apply key_transactions|intros (_&?&_); done|];
          apply made_v_value; [apply key_bank|intros _; apply bank_clean|];
          apply made_v_value; [apply key_account|intros (?&_); done|];
          apply made_v_tag; [apply tag_unknown|apply made_v_new]]].
      * cbn [snd]. intros t. unfold extra_tags, row_fps. rewrite !elem_of_cons, elem_of_app, !elem_of_cons. set_solver.
      * intros x Ex (_&_&Hl). destruct (r5_location r); by simplify_eq.
  - unfold six_form_postings.
    destruct (self_amount_of _ _) as [a| |] eqn:Ea; cbn [rbind]; [|done|done].
    destruct (six_fingerprint_v1 r ns i) as [fp| |] eqn:Ef; cbn [rbind]; [|done|done].
    apply six_fp in Ef as [Hn ->].
    destruct (seq_value ns i) as [seq| |] eqn:Es; cbn [rbind]; [|done|done].
    pose proof (λ f s, row_fps_good legacy ns (Six r) a i s f Hn) as Hg.
    set (c0 := with_value_tag TRANSACTION_TYPE_TAG _ _).
    assert (made_v (row_clean name (Six r)) c0 [UNKNOWN_ACCOUNT] (row_vs name (Six r))) as Hc0.
    { unfold c0. apply made_v_value; [apply key_type|intros (_&?); done|].
      apply made_v_value; [apply key_bank|intros _; apply bank_clean|].
      apply made_v_value; [apply key_account|intros (?&_); done|].
      apply made_v_tag; [apply tag_unknown|apply made_v_new]. }
    clearbody c0. cbn [fst snd].
    set (t1 := tag (fp_of (s2l "nwcsv6") 1 ns (six_message r i Self))).
    set (t2 := tag (fp_of (s2l "nwcsv6") 1 ns (six_message r i Peer))).
    assert (tag_ok t1) as Ht1.
    { apply good_tag_ok, (Hg _ Self). apply elem_of_app. right. by apply elem_of_list_singleton. }
    assert (tag_ok t2) as Ht2.
    { apply good_tag_ok, (Hg _ Peer). apply elem_of_app. right. by apply elem_of_list_singleton. }
    assert (made_v (row_clean name (Six r)) (with_tag IMPORT_SELF (with_value_tag SEQ seq (with_tag t1 c0)))
      [IMPORT_SELF; t1; UNKNOWN_ACCOUNT] ((SEQ, seq) :: row_vs name (Six r))) as H1.
    { apply made_v_tag; [apply tag_self|]. apply made_v_value; [apply key_seq|intros _; by eapply seq_clean|].
      by apply made_v_tag. }
    assert (made_v (row_clean name (Six r)) (with_tag IMPORT_PEER (with_tag t2 c0))
      [IMPORT_PEER; t2; UNKNOWN_ACCOUNT] (row_vs name (Six r))) as H2.
    { apply made_v_tag; [apply tag_peer|]. by apply made_v_tag. }
    generalize dependent (with_tag IMPORT_SELF (with_value_tag SEQ seq (with_tag t1 c0))). intros c1 H1.
    generalize dependent (with_tag IMPORT_PEER (with_tag t2 c0)). intros c2 H2.
    destruct legacy.
    + destruct (six_fingerprint_legacy _ _ _ _) as [l| |] eqn:El; cbn [rbind]; [|done|done].
      apply legacy_fp in El as [_ ->]. cbn [fst snd]. intros E. apply Ok_pair_inj in E as [<- <-].
      exists a. eexists _, _, seq. split_and!; [done|done|reflexivity|reflexivity|..].
      * eapply made_v_perm; [|apply made_v_tag; [apply good_tag_ok, (Hg _ Self), elem_of_app; left; by apply elem_of_list_singleton|exact H1]].
        intros t. unfold extra_tags, row_fps. rewrite !elem_of_app, !elem_of_cons. cbn [pick]. fold t1. tauto.
      * eapply made_v_perm; [|apply made_v_tag; [apply good_tag_ok, (Hg _ Peer), elem_of_app; left; by apply elem_of_list_singleton|exact H2]].
        intros t. unfold extra_tags, row_fps. rewrite !elem_of_app, !elem_of_cons. cbn [pick]. fold t2. tauto.
    + cbn [rbind]. intros E. apply Ok_pair_inj in E as [<- <-].
      exists a. eexists _, _, seq. split_and!; [done|done|reflexivity|reflexivity|..].
      * eapply made_v_perm; [|exact H1]. intros t. unfold extra_tags, row_fps. rewrite elem_of_app, !elem_of_cons. cbn [app].
        rewrite elem_of_cons. fold t1. tauto.
      * eapply made_v_perm; [|exact H2]. intros t. unfold extra_tags, row_fps. rewrite elem_of_app, !elem_of_cons. cbn [app].
        rewrite elem_of_cons. fold t2. tauto.
Qed.
Lemma values_are_ext p vs vs' : (∀ k x, trim x ≠ [] → (k, x) ∈ vs ↔ (k, x) ∈ vs') → values_are p vs → values_are p vs'.
Proof.
  intros E H k v. rewrite (H k v). split; intros (x & Hx & -> & Hne); exists x; (split; [by apply E|done]).
Qed.
Lemma row_vs_nodup name r : NoDup (fst <$> row_vs name r).
Proof. destruct r as [r|r]; unfold row_vs; [destruct (r5_location r)|]; cbn [optional app fmap list_fmap fst]; by_compute. Qed.
Lemma row_vs_nodup_seq name seq r : NoDup (fst <$> (SEQ, seq) :: row_vs name r).
Proof. destruct r as [r|r]; unfold row_vs; [destruct (r5_location r)|]; cbn [optional app fmap list_fmap fst]; by_compute. Qed.
Lemma row_vs_details name r k x : trim x ≠ [] → (k, x) ∈ row_vs name r ↔ (k, x) ∈ nw_details name r.
Proof.
  intros Hx. unfold row_vs, nw_details. change (s2l "account") with ACCOUNT. change (s2l "bank") with BANK. change (s2l "Nationwide") with BANK_NAME.
  change (s2l "transactions") with TRANSACTIONS_TAG. change (s2l "location") with LOCATION_TAG. change (s2l "trn_type") with TRANSACTION_TYPE_TAG.
  destruct r as [r|r].
  - destruct (r5_location r) as [|c l] eqn:El; cbn [optional app]; rewrite !elem_of_cons, elem_of_nil; [|tauto].
    split; [tauto|]. intros [?|[?|[?|[[= -> ->]|[]]]]]; tauto.
  - cbn [app]. rewrite !elem_of_cons, elem_of_nil. tauto.
Qed.
Lemma row_fps_fp legacy ns r a i s f : fp_part ns → f ∈ row_fps legacy ns r a i s → fp_tag f.
Proof. intros Hn H. by eapply good_is_fp, row_fps_good. Qed.

Lemma nw_says pd ho o records ns ts name rs k t r : hash_order_ok ho → parser_ok pd → fields_ok records →
  nw_csv_import pd ho o records = Ok (ns, ts) → statement_reads pd records name rs → ts !! k = Some t → rs !! k = Some r →
  ∃ own peer seq, t_postings t = [own; peer] ∧ sequence_text ns (S (day_number (rec_date <$> rs) k)) seq ∧
    values_are own ((s2l "seq", seq) :: nw_details name r) ∧ values_are peer (nw_details name r) ∧ own_tags own ∧ peer_tags peer.
Proof.
  intros Hho Hpd Hf (name' & rs' & Hs' & Hns & Hg)%import_reads Hs Hk Hr. destruct (statement_fun _ _ _ _ _ _ Hs Hs') as [<- <-]. clear Hs'.
  destruct (rows_give_day _ _ _ _ _ _ _ _ _ Hg Hr Hk) as (p1 & p2 & Hp & Hi & ->).
  destruct (statement_ok pd records name rs Hpd Hf Hs r) as [_ Hcl]; [by eapply elem_of_list_lookup_2|].
  apply row_postings_full in Hp as (a & c1 & c2 & seq & Eseq & Hn & -> & -> & M1 & M2).
  eexists _, _, seq. split; [reflexivity|]. split; [by apply seq_value_text|]. split; [|split; [|split]].
  - eapply values_are_ext; [|by eapply made_v_values; [..|exact M1|apply row_vs_nodup_seq]].
    intros k' x Hx. rewrite !elem_of_cons, (row_vs_details name r k' x Hx). done.
  - eapply values_are_ext; [|by eapply made_v_values; [..|exact M2|apply row_vs_nodup]]. intros k' x. apply row_vs_details.
  - eapply (made_v_tags _ _ _ ho _ _ _ _ _ Self); [done|exact Hcl|exact M1|]. intros f. by apply row_fps_fp.
  - eapply (made_v_tags _ _ _ ho _ _ _ _ _ Peer); [done|exact Hcl|exact M2|]. intros f. by apply row_fps_fp.
Qed.

(** ** PayPal rows *)
Lemma pp_postings_full ho legacy db ns v i : fp_part ns →
  ∃ p1 p2 c1 c2, pp_form_postings ho legacy (with_index i (pp_mk db ns v)) = (p1, p2) ∧
    p1 = Posting ASSETS_UNKNOWN Real (p_amount p1) (p_balance p1) (p_status p1) (into_opt_comment ho c1) ∧
    p2 = Posting (p_account p2) Real (p_amount p2) (p_balance p2) (p_status p2) (into_opt_comment ho c2) ∧
    made_v (pp_clean v) c1 (extra_tags Self ++ pp_fps legacy ns v i Self) (optional (s2l "receipt_id") (pr_receipt_id v)) ∧
    made_v (pp_clean v) c2 (extra_tags Peer ++ pp_fps legacy ns v i Peer)
      (optional TRANSACTION_NAME_TAG (pr_name v) ++ [(PP_TYPE_TAG, pr_type v)]).
Proof.
  intros Hn. eexists _, _, _, _. split; [reflexivity|]. split; [reflexivity|]. split; [reflexivity|].
  assert (∀ s, fp_ok (fp_of (s2l "ppcsv") 1 ns (pp_message v i s))) as Hok by (intros s; apply fp_of_ok; [apply part_pp|done]).
  split.
  - rewrite <- (app_nil_r (optional _ _)).
    eapply made_v_perm; [|apply made_v_tag; [apply good_tag_ok, good_tag, (Hok Self)|];
      apply made_v_opt_value; [apply key_receipt| |apply made_v_opt_tag; [|apply made_v_tag; [apply tag_unknown|apply made_v_tag; [apply tag_self|apply made_v_new]]]]].
    + intros t. unfold extra_tags, pp_fps. rewrite !elem_of_cons, !elem_of_app, !elem_of_cons.
      destruct legacy; cbn [from_option]; rewrite ?elem_of_cons, ?elem_of_nil; unfold fp_of, pp_message; cbn; tauto.
    + cbn. intros x Hx (_ & _ & H). by apply H.
    + intros x. destruct legacy; [|done]. intros [= <-]. apply good_tag_ok, good_legacy_tag, (Hok Self).
  - eapply made_v_perm; [|apply made_v_opt_value; [apply key_name| |apply made_v_value; [apply key_type| |
      apply made_v_opt_tag; [|apply made_v_tag; [apply tag_unknown|apply made_v_tag; [apply tag_peer|apply made_v_new]]]]]].
    + intros t. unfold extra_tags, pp_fps. rewrite !elem_of_app, !elem_of_cons.
      destruct legacy; cbn [from_option app]; rewrite ?elem_of_cons, ?elem_of_nil; unfold fp_of, pp_message; cbn; tauto.
    + cbn. intros x Hx (_ & H & _). by apply H.
    + cbn. by intros (? & _).
    + intros x. destruct legacy; [|done]. intros [= <-]. apply good_tag_ok, good_legacy_tag, (Hok Peer).
Qed.
Lemma pp_fps_fp legacy ns v i s f : fp_part ns → f ∈ pp_fps legacy ns v i s → fp_tag f.
Proof. intros Hn H. by eapply good_is_fp, pp_fps_good. Qed.
Lemma pp_says ho legacy tz db ns rows ts gs k t ti g i r : hash_order_ok ho → rows_ok rows →
  pp_import ho legacy tz db ns rows = Ok ts → runs db rows gs → ts !! k = Some t → gs !! k = Some (ti, g) → g !! i = Some r →
  ∃ own peer, t_postings t !! (2 * i) = Some own ∧ t_postings t !! (2 * i + 1) = Some peer ∧
    values_are own (pp_own_details r) ∧ values_are peer (pp_peer_details r) ∧ own_tags own ∧ peer_tags peer.
Proof.
  intros Hho [_ Hok] (Hn & Hz & H)%pp_import_spec Hr Hk Hg Hi.
  pose proof (runs_unique _ _ _ _ (row_groups_runs db ns rows Hz) Hr) as Eg. rewrite Eg in H. clear Eg.
  destruct (Forall2_lookup_r _ _ _ _ _ H Hk) as ([ti' g'] & Hg' & nm & _ & ->). rewrite Hg in Hg'. injection Hg' as <- <-.
  assert (r ∈ rows) as Hin.
  { rewrite <- (rn_all _ _ _ Hr). apply elem_of_list_join. exists g. split; [by eapply elem_of_list_lookup_2|].
    apply elem_of_list_fmap. exists (ti, g). split; [done|]. by eapply elem_of_list_lookup_2. }
  assert (fp_part ns) as Hns. { destruct Hn as [->|?]; [by apply elem_of_nil in Hin|done]. }
  assert (pp_clean r) as Hcl by (destruct (Hok r Hin) as (_ & ? & ? & ?); done).
  destruct (group_posts_lookup ho legacy db ns g) as [_ Hp]. destruct (Hp i r Hi) as [H1 H2]. cbn [t_postings snd].
  destruct (pp_postings_full ho legacy db ns r i Hns) as (p1 & p2 & c1 & c2 & E & E1 & E2 & M1 & M2). rewrite E in H1, H2. cbn [fst snd] in H1, H2.
  exists p1, p2. split; [exact H1|]. split; [exact H2|]. split; [|split; [|split]].
  - rewrite E1. eapply made_v_values; [done|exact Hcl|exact M1|]. unfold pp_own_details. destruct (pr_receipt_id r); cbn [optional fmap list_fmap fst]; by_compute.
  - rewrite E2. eapply values_are_ext; [|eapply made_v_values; [done|exact Hcl|exact M2|]].
    + intros k' x _. unfold pp_peer_details. rewrite elem_of_app, elem_of_list_singleton, elem_of_cons.
      change (s2l "trn_name") with TRANSACTION_NAME_TAG. change (s2l "trn_type") with PP_TYPE_TAG. tauto.
    + destruct (pr_name r); cbn [optional app fmap list_fmap fst]; by_compute.
  - rewrite E1. eapply (made_v_tags _ _ _ ho _ _ _ _ _ Self); [done|exact Hcl|exact M1|]. intros f. by apply pp_fps_fp.
  - rewrite E2. eapply (made_v_tags _ _ _ ho _ _ _ _ _ Peer); [done|exact Hcl|exact M2|]. intros f. by apply pp_fps_fp.
Qed.

(** ** PDF statements *)
Lemma build_trn_full ho ns b t : build_trn ho ns b = Ok t → fp_part ns ∧ ∃ p1 p2 c1 c2 seq, t_postings t = [p1; p2] ∧ seq_value ns (tb_counter b) = Ok seq ∧
  p1 = Posting (p_account p1) Real (p_amount p1) (p_balance p1) (p_status p1) (into_opt_comment ho c1) ∧
  p2 = Posting (p_account p2) Real (p_amount p2) (p_balance p2) (p_status p2) (into_opt_comment ho c2) ∧
  made_v True c1 (extra_tags Self ++ [pdf_fp ns b Self]) [(SEQ, seq); (BANK, BANK_NAME)] ∧
  made_v True c2 (extra_tags Peer ++ [pdf_fp ns b Peer]) [(BANK, BANK_NAME)].
Proof.
  unfold build_trn. destruct (builder_new _ _ _) as [fb| |] eqn:Ef; cbn [rbind]; [|done|done].
  apply builder_new_ok in Ef as (_ & Hn & ->). destruct (seq_value _ _) as [seq| |] eqn:Es; cbn [rbind]; [|done|done].
  intros E. apply Ok_inj in E as <-. split; [done|].
  eexists _, _, _, _, seq. split; [reflexivity|]. split; [done|]. split; [reflexivity|]. split; [reflexivity|]. split.
  - eapply made_v_perm; [|apply made_v_tag; [apply good_tag_ok, (pdf_fp_good ns b Self Hn)|];
      apply made_v_tag; [apply tag_self|]; apply made_v_value; [apply key_seq|intros _; by eapply seq_clean|];
      apply made_v_tag; [apply tag_unknown|]; apply made_v_value; [apply key_bank|intros _; apply bank_clean|apply made_v_new]].
    intros t. unfold extra_tags. rewrite elem_of_app, !elem_of_cons. set_solver.
  - eapply made_v_perm; [|apply made_v_tag; [apply good_tag_ok, (pdf_fp_good ns b Peer Hn)|];
      apply made_v_tag; [apply tag_peer|]; 
      apply made_v_tag; [apply tag_unknown|]; apply made_v_value; [apply key_bank|intros _; apply bank_clean|apply made_v_new]].
    intros t. unfold extra_tags. rewrite elem_of_app, !elem_of_cons. set_solver.
Qed.
Lemma pdf_says E ho o doc ns ts ls skip gs k t n : hash_order_ok ho → pdf_import E ho o doc = Ok (ns, ts) → statement_lines E doc ls → grouped ls skip gs →
  ts !! k = Some t → sequence None 0 gs !! k = Some n →
  ∃ own peer seq, t_postings t = [own; peer] ∧ sequence_text ns (S n) seq ∧
    values_are own [(s2l "seq", seq); (s2l "bank", s2l "Nationwide")] ∧ values_are peer [(s2l "bank", s2l "Nationwide")] ∧ own_tags own ∧ peer_tags peer.
Proof.
  intros Hho (name & ls' & skip' & gs' & _ & Hns & Hls' & Hg' & Hgv)%import_lines Hls Hg Hk Hn.
  assert (ls' = ls) as -> by (by eapply statement_fun'). destruct (grouping_fun _ _ _ _ _ Hg Hg') as [-> ->].
  apply gives_lookup in Hgv as [_ Hgv]. destruct (Hgv k t Hk) as (g & m & b & _ & Hm & Hb & Ht & _). rewrite Hn in Hm. injection Hm as <-.
  apply builds_reads in Hb as (_ & _ & _ & Hc & _).
  apply build_trn_full in Ht as (Hpart & p1 & p2 & c1 & c2 & seq & Ep & Eseq & E1 & E2 & M1 & M2). rewrite Hc in Eseq.
  exists p1, p2, seq. split; [exact Ep|]. split; [by apply seq_value_text|]. split; [|split; [|split]].
  - rewrite E1. eapply made_v_values; [done|exact I|exact M1|]. cbn [fmap list_fmap fst]. by_compute.
  - rewrite E2. eapply made_v_values; [done|exact I|exact M2|]. cbn [fmap list_fmap fst]. by_compute.
  - rewrite E1. eapply (made_v_tags _ _ _ ho _ _ _ _ _ Self); [done|exact I|exact M1|]. intros f ->%elem_of_list_singleton. by eapply good_is_fp, pdf_fp_good.
  - rewrite E2. eapply (made_v_tags _ _ _ ho _ _ _ _ _ Peer); [done|exact I|exact M2|]. intros f ->%elem_of_list_singleton. by eapply good_is_fp, pdf_fp_good.
Qed.

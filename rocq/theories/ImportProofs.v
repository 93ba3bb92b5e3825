(** Lemmas about the Nationwide CSV importer (C43-C49, C52). *)
From Verif Require Import MergeClaims.
From Verif Require Import Base Types SpecBase BaseProofs StrProofs CommentModel Sha1 FingerprintModel NwCsvModel TzModel
  PaypalModel CommentClaims CommentProofs CommentLaws FingerprintClaims FingerprintProofs FingerprintLaws ImportClaims.
From Coq Require Import Lia.
Local Open Scope nat_scope.

(** ** Tags of written comments *)
Definition tag_ok (t : str) : Prop := tag_name t ∧ newline ∉ t.
Definition key_ok (k : str) : Prop := tag_name k ∧ trim k = k ∧ newline ∉ k.
(** A comment without text lines and with exactly the tags [ts]; under [P] its
    values have no line break. *)
Definition made (P : Prop) (c : comment) (ts : list str) : Prop :=
  lines c = [] ∧ (∀ t, t ∈ tags c ↔ t ∈ ts) ∧ (∀ t : str, t ∈ ts → tag_ok t) ∧
  ∀ k v, value_tags c !! k = Some v → key_ok k ∧ (P → newline ∉ v).

Lemma made_new P : made P comment_new [].
Proof.
  split_and!; [done|..].
  - intros t. simpl. split; [set_solver|]. intros H. by apply elem_of_nil in H.
  - intros t H. by apply elem_of_nil in H.
  - intros k v H. simpl in H. by rewrite lookup_empty in H.
Qed.
Lemma made_tag P c ts t : tag_ok t → made P c ts → made P (with_tag t c) (t :: ts).
Proof.
  intros Ht (H1&H2&H3&H4). split_and!.
  - by destruct c.
  - intros u. destruct c as [l tg v]. simpl in *. rewrite elem_of_union, elem_of_singleton, H2, elem_of_cons. done.
  - intros u [->|Hu]%elem_of_cons; auto.
  - intros k v. destruct c as [l tg vt]. simpl in *. apply H4.
Qed.
Lemma made_value (P : Prop) c ts k v : key_ok k → (P → newline ∉ v) → made P c ts → made P (with_value_tag k v c) ts.
Proof.
  intros Hk Hv (H1&H2&H3&H4). split_and!.
  - by destruct c.
  - intros u. destruct c as [l tg vt]. simpl in *. done.
  - done.
  - intros k' v'. destruct c as [l tg vt]. simpl in *. intros [[<- <-]|[_ H]]%lookup_insert_Some; [done|]. by apply H4.
Qed.
Lemma made_opt_tag P c ts t : (∀ x, t = Some x → tag_ok x) → made P c ts →
  made P (with_option_tag t c) (from_option (λ x, [x]) [] t ++ ts).
Proof. intros Ht H. destruct t as [t|]; [|done]. apply made_tag; auto. Qed.
Lemma made_opt_value (P : Prop) c ts k v : key_ok k → (∀ x, v = Some x → P → newline ∉ x) → made P c ts →
  made P (with_option_value_tag k v c) ts.
Proof. intros Hk Hv H. destruct v as [v|]; [|done]. apply made_value; eauto. Qed.

Lemma made_survives P c ts ho t : hash_order_ok ho → made P c ts → t ∈ ts →
  t ∈ tags (from_opt_comment (into_opt_comment ho c)).
Proof.
  intros Hho (H1&H2&H3&_) Ht. apply tags_survive; [done| |by apply H2|by apply H3].
  intros u Hu%H2. by apply H3.
Qed.
Lemma flag_two_colons t k : tag_name k → ¬ flag_in t (k ++ [COLON; SPACE]).
Proof.
  intros [_ Hk] (Ht & a & b & E).
  assert (∀ i, (k ++ [COLON; SPACE]) !! i = Some colon → i = length k) as H.
  { intros i [Hi|[Hl Hi]]%lookup_app_Some.
    - apply elem_of_list_lookup_2, Hk in Hi as [? _]. done.
    - destruct (i - length k) as [|[|n]] eqn:En; [lia|by simplify_eq/=|by destruct n]. }
  rewrite E in H. pose proof (H (length a)) as Ha. pose proof (H (length a + S (length t))) as Hb.
  rewrite list_lookup_middle in Ha by done.
  rewrite lookup_app_r in Hb by lia. replace (length a + S (length t) - length a) with (S (length t)) in Hb by lia.
  change ((colon :: t ++ colon :: b) !! S (length t)) with ((t ++ colon :: b) !! length t) in Hb. rewrite list_lookup_middle in Hb by done. specialize (Ha eq_refl). specialize (Hb eq_refl). lia.
Qed.
Lemma pair_no_flag t k v : key_ok k → newline ∉ v →
  ¬ (value_tag_rx (trim k ++ [COLON; SPACE] ++ trim v) = None ∧ flag_in t (trim k ++ [COLON; SPACE] ++ trim v)).
Proof.
  intros (Hk & Htk & Hkn) Hv [E1 E2]. rewrite Htk in *. destruct (decide (trim v = [])) as [E|E].
  - rewrite E in E2. by apply flag_two_colons in E2.
  - pose proof (parse_line_pair k (trim v) comment_new Hk E (trim_trim v)) as H.
    assert (newline ∉ trim v) as Hn by (intros Hx%trim_sub; done). specialize (H Hn).
    destruct (parse_line_text _ comment_new E1) as (parts & tail & _ & _ & _ & _ & H').
    rewrite H in H'. apply (f_equal value_tags) in H'. cbn [value_tags comment_new] in H'.
    apply (f_equal (λ m : gmap str str, m !! k)) in H'. by rewrite lookup_insert, lookup_empty in H'.
Qed.
Lemma made_exact (P : Prop) c ts ho t : hash_order_ok ho → P → made P c ts →
  t ∈ tags (from_opt_comment (into_opt_comment ho c)) ↔ t ∈ ts.
Proof.
  intros Hho HP Hm. split; [|by eapply made_survives].
  destruct Hm as (H1&H2&H3&H4). rewrite from_into, H1. unfold format_lines.
  rewrite bind_app, parse_lines_app.
  assert (Forall (λ s, NL ∉ s) (format_tags ho (tags c))) as Hn1.
  { rewrite format_tags_runs. apply Forall_fmap, Forall_forall. intros r Hr. simpl. rewrite not_elem_of_cons. split; [done|].
    unfold group. intros (u & Hu & Hur)%elem_of_list_bind.
    apply elem_of_app in Hu as [Hu|Hu%elem_of_list_singleton]; [|done].
    assert (u ∈ tags c) as Hut%H2 by (apply (tag_runs_elem ho); eauto). by apply H3 in Hut as [_ ?]. }
  destruct (sorted_values_spec ho (value_tags c) Hho) as (S1 & S2 & S3).
  assert (Forall (λ s, NL ∉ s) (format_values ho (value_tags c))) as Hn2.
  { unfold format_values. apply Forall_fmap, Forall_forall. intros [k v] Hp%S1. simpl in *.
    apply H4 in Hp as [(K1&K2&K3) Hv]. rewrite K2, not_elem_of_app, !not_elem_of_cons.
    split_and!; [done|done|done|]. intros Hx%trim_sub. by apply Hv. }
  rewrite (bind_split_id _ Hn1), (bind_split_id _ Hn2).
  rewrite format_tags_runs, parse_tag_lines.
  2:{ apply Forall_forall. intros r Hr. split; [by eapply tag_runs_nonempty|]. apply Forall_forall. intros u Hu.
      assert (u ∈ tags c) as Hut%H2 by (apply (tag_runs_elem ho); eauto). by apply H3 in Hut as [? _]. }
  intros [Ht|(l & Hl & E1 & E2)]%parse_tags.
  - cbn [tags comment_new] in Ht. apply elem_of_union in Ht as [Ht|Ht]; [by apply elem_of_empty in Ht|].
    apply elem_of_list_to_set, elem_of_list_join in Ht as (r & Hr1 & Hr2). apply H2. apply (tag_runs_elem ho); eauto.
  - unfold format_values in Hl. apply elem_of_list_fmap in Hl as ([k v] & -> & Hp%S1). simpl in Hp.
    apply H4 in Hp as [Hk Hv]. destruct (pair_no_flag t k v); [done|by apply Hv|done].
Qed.

(** ** Names used by the importers *)
Definition plain_char (c : char) : bool := negb ((c =? 58) || (c =? 32) || (c =? 10))%N.
Lemma plain_key k : k ≠ [] → forallb plain_char k = true → trim k = k → key_ok k.
Proof.
  intros Hne H Ht.
  assert (∀ c, c ∈ k → c ≠ colon ∧ c ≠ space ∧ c ≠ newline) as Hc.
  { intros c Hc. rewrite forallb_forall in H. apply elem_of_list_In, H in Hc. unfold plain_char in Hc.
    unfold colon, space, newline. split_and!; intros ->; done. }
  unfold key_ok, tag_name. split_and!; [done| |done|].
  - intros c Hin. by destruct (Hc c Hin) as (?&?&?).
  - intros Hin. by destruct (Hc _ Hin) as (?&?&?).
Qed.
Ltac plain := apply plain_key; [done|reflexivity|reflexivity].
Lemma key_tag k : key_ok k → tag_ok k.
Proof. by intros (?&?&?). Qed.
Lemma key_account : key_ok ACCOUNT. Proof. plain. Qed.
Lemma key_bank : key_ok BANK. Proof. plain. Qed.
Lemma key_transactions : key_ok TRANSACTIONS_TAG. Proof. plain. Qed.
Lemma key_location : key_ok LOCATION_TAG. Proof. plain. Qed.
Lemma key_type : key_ok TRANSACTION_TYPE_TAG. Proof. plain. Qed.
Lemma key_name : key_ok TRANSACTION_NAME_TAG. Proof. plain. Qed.
Lemma key_seq : key_ok SEQ. Proof. plain. Qed.
Lemma key_receipt : key_ok (s2l "receipt_id"). Proof. plain. Qed.
Lemma tag_unknown : tag_ok UNKNOWN_ACCOUNT. Proof. apply key_tag. plain. Qed.
Lemma tag_self : tag_ok IMPORT_SELF. Proof. apply key_tag. plain. Qed.
Lemma tag_peer : tag_ok IMPORT_PEER. Proof. apply key_tag. plain. Qed.
Lemma good_tag_ok t : good_fp_tag t → tag_ok t.
Proof. by intros (_&_&?&?&_). Qed.
Lemma bank_clean : newline ∉ BANK_NAME.
Proof. by_compute. Qed.
Lemma Ok_inj {A} (x y : A) : Ok x = Ok y → x = y.
Proof. congruence. Qed.
Lemma Ok_pair_inj {A B} (x x' : A) (y y' : B) : Ok (x, y) = Ok (x', y') → x = x' ∧ y = y'.
Proof. by intros [= -> ->]. Qed.
Lemma seq_clean ns i s : fp_part ns → seq_value ns i = Ok s → newline ∉ s.
Proof.
  intros Hn. unfold seq_value. case_match; [done|]. intros E. apply Ok_inj in E as <-. rewrite !not_elem_of_app. split_and!.
  - by apply part_not.
  - by_compute.
  - intros [[H1 H2]|H0]%show_Z_chars; [|done]. unfold newline in *. lia.
Qed.

(** ** The postings of one row *)
Definition row_fps (legacy : bool) (ns : str) (r : nw_record) (a : amount) (i : Z) (s : side) : list str :=
  match r with
  | Five r => [tag (fp_of (s2l "nwcsv5") 1 ns (five_message r i s))]
  | Six r => (if legacy then [legacy_tag (fp_of [] 0 ns
                 (legacy_message r i (pick s (self_and_peer_account_amount a ASSETS_UNKNOWN))))] else []) ++
             [tag (fp_of (s2l "nwcsv6") 1 ns (six_message r i s))]
  end.
Definition row_clean (name : str) (r : nw_record) : Prop :=
  newline ∉ name ∧
  match r with
  | Five r => newline ∉ r5_transactions r ∧ newline ∉ r5_location r
  | Six r => newline ∉ r6_type r
  end.
Definition row_bal (r : nw_record) : option balance :=
  match r with Five _ => None | Six r => Some (BalAmount (r6_balance r)) end.
Definition peer_account (a : amount) : str := if d_neg (a_quantity a) then EXPENSES_UNKNOWN else INCOME_UNKNOWN.
Definition extra_tags (s : side) : list str := [match s with Self => IMPORT_SELF | Peer => IMPORT_PEER end; UNKNOWN_ACCOUNT].

Lemma row_fps_good legacy ns r a i s f : fp_part ns → f ∈ row_fps legacy ns r a i s → good_fp_tag f.
Proof.
  intros Hn. destruct r as [r|r]; unfold row_fps.
  - intros ->%elem_of_list_singleton. apply good_tag, fp_of_ok; [apply part_five|done].
  - rewrite elem_of_app. intros [H| ->%elem_of_list_singleton].
    + destruct legacy; [|by apply elem_of_nil in H]. apply elem_of_list_singleton in H as ->.
      apply good_legacy_tag, fp_of_ok; [apply part_nil|done].
    + apply good_tag, fp_of_ok; [apply part_six|done].
Qed.

Lemma made_perm P c ts ts' : (∀ t : str, t ∈ ts ↔ t ∈ ts') → made P c ts → made P c ts'.
Proof.
  intros E (H1&H2&H3&H4). split_and!; [done|..|done].
  - intros t. by rewrite H2.
  - intros t Ht. by apply H3, E.
Qed.

Lemma row_postings_spec ho r ns name i legacy p1 p2 :
  rec_form_postings ho r ns name i legacy = Ok (p1, p2) →
  ∃ a c1 c2, self_amount_of (paid_in r) (paid_out r) = Ok a ∧ fp_part ns ∧ i ≠ I32_MAX ∧
    p1 = Posting ASSETS_UNKNOWN Real (Some (PostingAmount a None None)) (row_bal r) None (into_opt_comment ho c1) ∧
    p2 = Posting (peer_account a) Real (Some (PostingAmount (negate_amount a) None None)) None None (into_opt_comment ho c2) ∧
    made (row_clean name r) c1 (extra_tags Self ++ row_fps legacy ns r a i Self) ∧
    made (row_clean name r) c2 (extra_tags Peer ++ row_fps legacy ns r a i Peer).
Proof.
  destruct r as [r|r]; cbn [rec_form_postings paid_in paid_out].
  - unfold five_form_postings.
    destruct (self_amount_of _ _) as [a| |] eqn:Ea; cbn [rbind]; [|done|done].
    destruct (five_fingerprint_v1 r ns i) as [fp| |] eqn:Ef; cbn [rbind]; [|done|done].
    apply five_fp in Ef as [Hn ->].
    destruct (seq_value ns i) as [seq| |] eqn:Es; cbn [rbind]; [|done|done].
    intros E. apply Ok_pair_inj in E as [<- <-].
    pose proof (λ f s, row_fps_good legacy ns (Five r) a i s f Hn) as Hg.
    exists a. eexists _, _. split_and!; [done|done| |reflexivity|reflexivity|..].
    { intros ->. unfold seq_value in Es. by rewrite Z.eqb_refl in Es. }
    + eapply made_perm; [|apply made_tag; [apply tag_self|];
        apply made_value; [apply key_seq|intros _; by eapply seq_clean|];
        apply made_tag; [apply good_tag_ok, (Hg _ Self); left|];
        apply made_opt_value; [apply key_location| |];
        [|apply made_value; [apply key_transactions|intros (_&?&_); done|];
          apply made_value; [apply key_bank|intros _; apply bank_clean|];
          apply made_value; [apply key_account|intros (?&_); done|];
          apply made_tag; [apply tag_unknown|apply made_new]]].
      * cbn [fst]. intros t. unfold extra_tags, row_fps. rewrite !elem_of_cons, elem_of_app, !elem_of_cons. set_solver.
      * intros x Ex (_&_&Hl). destruct (r5_location r); by simplify_eq.
    + eapply made_perm; [|apply made_tag; [apply tag_peer|];
        apply made_tag; [apply good_tag_ok, (Hg _ Peer); left|];
        apply made_opt_value; [apply key_location| |];
        [|apply made_value; [apply key_transactions|intros (_&?&_); done|];
          apply made_value; [apply key_bank|intros _; apply bank_clean|];
          apply made_value; [apply key_account|intros (?&_); done|];
          apply made_tag; [apply tag_unknown|apply made_new]]].
      * cbn [snd]. intros t. unfold extra_tags, row_fps. rewrite !elem_of_cons, elem_of_app, !elem_of_cons. set_solver.
      * intros x Ex (_&_&Hl). destruct (r5_location r); by simplify_eq.
  - unfold six_form_postings.
    destruct (self_amount_of _ _) as [a| |] eqn:Ea; cbn [rbind]; [|done|done].
    destruct (six_fingerprint_v1 r ns i) as [fp| |] eqn:Ef; cbn [rbind]; [|done|done].
    apply six_fp in Ef as [Hn ->].
    destruct (seq_value ns i) as [seq| |] eqn:Es; cbn [rbind]; [|done|done].
    pose proof (λ f s, row_fps_good legacy ns (Six r) a i s f Hn) as Hg.
    assert (i ≠ I32_MAX) as Hi.
    { intros ->. unfold seq_value in Es. by rewrite Z.eqb_refl in Es. }
    set (c0 := with_value_tag TRANSACTION_TYPE_TAG _ _).
    assert (made (row_clean name (Six r)) c0 [UNKNOWN_ACCOUNT]) as Hc0.
    { unfold c0. apply made_value; [apply key_type|intros (_&?); done|].
      apply made_value; [apply key_bank|intros _; apply bank_clean|].
      apply made_value; [apply key_account|intros (?&_); done|].
      apply made_tag; [apply tag_unknown|apply made_new]. }
    clearbody c0. cbn [fst snd].
    set (t1 := tag (fp_of (s2l "nwcsv6") 1 ns (six_message r i Self))).
    set (t2 := tag (fp_of (s2l "nwcsv6") 1 ns (six_message r i Peer))).
    assert (tag_ok t1) as Ht1.
    { apply good_tag_ok, (Hg _ Self). apply elem_of_app. right. by apply elem_of_list_singleton. }
    assert (tag_ok t2) as Ht2.
    { apply good_tag_ok, (Hg _ Peer). apply elem_of_app. right. by apply elem_of_list_singleton. }
    assert (made (row_clean name (Six r)) (with_tag IMPORT_SELF (with_value_tag SEQ seq (with_tag t1 c0)))
      [IMPORT_SELF; t1; UNKNOWN_ACCOUNT]) as H1.
    { apply made_tag; [apply tag_self|]. apply made_value; [apply key_seq|intros _; by eapply seq_clean|].
      by apply made_tag. }
    assert (made (row_clean name (Six r)) (with_tag IMPORT_PEER (with_tag t2 c0))
      [IMPORT_PEER; t2; UNKNOWN_ACCOUNT]) as H2.
    { apply made_tag; [apply tag_peer|]. by apply made_tag. }
    generalize dependent (with_tag IMPORT_SELF (with_value_tag SEQ seq (with_tag t1 c0))). intros c1 H1.
    generalize dependent (with_tag IMPORT_PEER (with_tag t2 c0)). intros c2 H2.
    destruct legacy.
    + destruct (six_fingerprint_legacy _ _ _ _) as [l| |] eqn:El; cbn [rbind]; [|done|done].
      apply legacy_fp in El as [_ ->]. cbn [fst snd]. intros E. apply Ok_pair_inj in E as [<- <-].
      exists a. eexists _, _. split_and!; [done|done|done|reflexivity|reflexivity|..].
      * eapply made_perm; [|apply made_tag; [apply good_tag_ok, (Hg _ Self), elem_of_app; left; by apply elem_of_list_singleton|exact H1]].
        intros t. unfold extra_tags, row_fps. rewrite !elem_of_app, !elem_of_cons. cbn [pick]. fold t1. tauto.
      * eapply made_perm; [|apply made_tag; [apply good_tag_ok, (Hg _ Peer), elem_of_app; left; by apply elem_of_list_singleton|exact H2]].
        intros t. unfold extra_tags, row_fps. rewrite !elem_of_app, !elem_of_cons. cbn [pick]. fold t2. tauto.
    + cbn [rbind]. intros E. apply Ok_pair_inj in E as [<- <-].
      exists a. eexists _, _. split_and!; [done|done|done|reflexivity|reflexivity|..].
      * eapply made_perm; [|exact H1]. intros t. unfold extra_tags, row_fps. rewrite elem_of_app, !elem_of_cons. cbn [app].
        rewrite elem_of_cons. fold t1. tauto.
      * eapply made_perm; [|exact H2]. intros t. unfold extra_tags, row_fps. rewrite elem_of_app, !elem_of_cons. cbn [app].
        rewrite elem_of_cons. fold t2. tauto.
Qed.

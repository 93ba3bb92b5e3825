(** Laws of the PayPal importer (C45, C46, C49-C51). *)
From Verif Require Import MergeClaims.
From Verif Require Import Base Types SpecBase BaseProofs StrProofs CommentModel MergeModel Sha1 FingerprintModel NwCsvModel TzModel
  PaypalModel CommentClaims FingerprintClaims FingerprintProofs FingerprintLaws ImportClaims ImportProofs.
From Verif Require Import MergeProofs MergeLemmas MergeLaws4 ImportLaws.
From Coq Require Import Lia QArith.
Local Open Scope nat_scope.

(** ** Runs of equal keys *)
Lemma mjoin_cons {A} (l : list A) ls : mjoin (l :: ls) = l ++ mjoin ls.
Proof. done. Qed.
Section chunks.
  Context {A K : Type} `{EqDecision K} (key : A → K).
  Lemma chunk_join l : mjoin (snd <$> chunk_by key l) = l.
  Proof.
    induction l as [|x l IH]; [done|]. cbn [chunk_by]. destruct (chunk_by key l) as [|[k g] gs].
    - cbn in IH. by subst.
    - rewrite fmap_cons, mjoin_cons in IH. cbn [snd] in IH.
      destruct (decide (key x = k)); rewrite !fmap_cons, !mjoin_cons; cbn [snd app]; by rewrite IH.
  Qed.
  Lemma chunk_uniform l k g : (k, g) ∈ chunk_by key l → g ≠ [] ∧ ∀ x, x ∈ g → key x = k.
  Proof.
    revert k g. induction l as [|x l IH]; intros k g; [by intros H%elem_of_nil|]. cbn [chunk_by].
    destruct (chunk_by key l) as [|[k' g'] gs].
    - intros [= -> ->]%elem_of_list_singleton. split; [done|]. by intros y ->%elem_of_list_singleton.
    - destruct (decide (key x = k')) as [E|E].
      + intros [[= -> ->]|H]%elem_of_cons.
        * split; [done|]. intros y [->|Hy]%elem_of_cons; [done|]. apply (IH k' g'); [left|done].
        * apply IH. by right.
      + intros [[= -> ->]|H]%elem_of_cons; [|by apply IH].
        split; [done|]. by intros y ->%elem_of_list_singleton.
  Qed.
  Lemma chunk_maximal l i k g k' g' : chunk_by key l !! i = Some (k, g) → chunk_by key l !! S i = Some (k', g') → k ≠ k'.
  Proof.
    revert i k g k' g'. induction l as [|x l IH]; intros i k g k' g'; [done|]. cbn [chunk_by].
    destruct (chunk_by key l) as [|[k0 g0] gs] eqn:Ec; [by destruct i|].
    destruct (decide (key x = k0)) as [E|E].
    - destruct i as [|i]; cbn.
      + intros [= <- <-] H. by apply (IH 0 k0 g0 k' g').
      + intros H1 H2. by apply (IH (S i) k g k' g').
    - destruct i as [|i]; cbn.
      + intros [= <- <-] [= <- <-]. done.
      + intros H1 H2. by apply (IH i k g k' g').
  Qed.
End chunks.
Lemma chunk_fmap {A B K} `{EqDecision K} (key : B → K) (f : A → B) l :
  chunk_by key (f <$> l) = (λ kg : K * list A, (kg.1, f <$> kg.2)) <$> chunk_by (λ x, key (f x)) l.
Proof.
  induction l as [|x l IH]; [done|]. rewrite fmap_cons. cbn [chunk_by]. rewrite IH.
  destruct (chunk_by (λ x, key (f x)) l) as [|[k g] gs]; [done|]. cbn. by destruct (decide (key (f x) = k)).
Qed.

(** Runs are determined by the list. *)
Lemma runs_unique_gen {A K} (R : A → K → Prop) (gs gs' : list (K * list A)) :
  (∀ x k k', R x k → R x k' → k = k') →
  (∀ k g, (k, g) ∈ gs → g ≠ [] ∧ ∀ x, x ∈ g → R x k) →
  (∀ k g, (k, g) ∈ gs' → g ≠ [] ∧ ∀ x, x ∈ g → R x k) →
  (∀ i k g k' g', gs !! i = Some (k, g) → gs !! S i = Some (k', g') → k ≠ k') →
  (∀ i k g k' g', gs' !! i = Some (k, g) → gs' !! S i = Some (k', g') → k ≠ k') →
  mjoin (snd <$> gs) = mjoin (snd <$> gs') → gs = gs'.
Proof.
  intros HR. revert gs'. induction gs as [|[k g] gs IH]; intros [|[k' g'] gs'] H H' Hm Hm' E.
  - done.
  - destruct (H' k' g'); [left|]. destruct g'; [done|]. done.
  - destruct (H k g); [left|]. destruct g; [done|]. done.
  - destruct (H k g) as [Hg1 Hg2]; [left|]. destruct (H' k' g') as [Hg1' Hg2']; [left|].
    assert (k = k') as <-.
    { destruct g as [|x g]; [done|]. destruct g' as [|x' g']; [done|]. cbn in E. injection E as -> E.
      eapply HR; [apply Hg2; left|apply Hg2'; left]. }
    assert (∀ (a b : list A) (u v : list (K * list A)), (∀ x, x ∈ a → R x k) → (∀ x, x ∈ b → R x k) →
       (∀ k2 g2, head u = Some (k2, g2) → k ≠ k2 ∧ g2 ≠ [] ∧ ∀ x, x ∈ g2 → R x k2) →
       (∀ k2 g2, head v = Some (k2, g2) → k ≠ k2 ∧ g2 ≠ [] ∧ ∀ x, x ∈ g2 → R x k2) →
       a ++ mjoin (snd <$> u) = b ++ mjoin (snd <$> v) → a = b ∧ mjoin (snd <$> u) = mjoin (snd <$> v)) as Haux.
    { clear -HR. intros a. induction a as [|x a IHa]; intros b u v Ha Hb Hu Hv E.
      - destruct b as [|y b]; [done|]. exfalso. destruct u as [|[k2 g2] u]; [done|].
        destruct (Hu k2 g2 eq_refl) as (Hk & Hg & Hgx). destruct g2 as [|z g2]; [done|]. cbn in E. injection E as -> E.
        apply Hk. eapply HR; [apply Hb; left|apply Hgx; left].
      - destruct b as [|y b].
        + exfalso. destruct v as [|[k2 g2] v]; [done|].
          destruct (Hv k2 g2 eq_refl) as (Hk & Hg & Hgx). destruct g2 as [|z g2]; [done|]. cbn in E. injection E as -> E.
          apply Hk. eapply HR; [apply Ha; left|apply Hgx; left].
        + cbn in E. injection E as -> E. destruct (IHa b u v) as [-> E']; [..|done|done].
          * intros z Hz. apply Ha. by right.
          * intros z Hz. apply Hb. by right.
          * done.
          * done. }
    assert (∀ (w : list (K * list A)) g0, (∀ k1 g, (k1, g) ∈ (k, g0) :: w → g ≠ [] ∧ ∀ x, x ∈ g → R x k1) →
      (∀ i k1 g k' g', ((k, g0) :: w) !! i = Some (k1, g) → ((k, g0) :: w) !! S i = Some (k', g') → k1 ≠ k') →
      ∀ k2 g2, head w = Some (k2, g2) → k ≠ k2 ∧ g2 ≠ [] ∧ ∀ x, x ∈ g2 → R x k2) as Hhd.
    { intros w g0 W1 W2 k2 g2 Ew. destruct w as [|[k3 g3] w]; [done|]. cbn in Ew. injection Ew as -> ->. split.
      - by apply (W2 0 k g0 k2 g2).
      - apply W1. right. left. }
    destruct (Haux g g' gs gs') as [-> E']; [done|done|apply (Hhd gs g H Hm)|apply (Hhd gs' g' H' Hm')|done|].
    f_equal. apply IH.
    + intros k2 g2 Hin. apply H. by right.
    + intros k2 g2 Hin. apply H'. by right.
    + intros i. apply (Hm (S i)).
    + intros i. apply (Hm' (S i)).
    + done.
Qed.
Lemma row_instant_fun db r t t' : row_instant db r t → row_instant db r t' → t = t'.
Proof. intros (o & E & ->) (o' & E' & ->). congruence. Qed.
Lemma runs_unique db rows gs gs' : runs db rows gs → runs db rows gs' → gs = gs'.
Proof.
  intros [A1 A2 A3 A4] [B1 B2 B3 B4]. apply (runs_unique_gen (row_instant db)).
  - apply row_instant_fun.
  - intros k g H. split; [by eapply A2|]. intros x. by apply A3.
  - intros k g H. split; [by eapply B2|]. intros x. by apply B3.
  - done.
  - done.
  - by rewrite A1, B1.
Qed.

(** ** Records *)
Definition pp_mk (db : tz_db) (ns : str) (v : pp_row) : pp_record :=
  PpRecord (local_instant (pr_date v) (pr_time v) (default 0%Z (abbr_to_tz db (pr_time_zone v))))
    (pr_name v) (pr_type v) (pr_status v) (row_amount v) (row_balance v) (pr_receipt_id v)
    (Builder (with_amount (row_balance v) (with_amount (row_amount v) (with_str (pr_type v)
       (with_option with_str (pr_name v) (with_str (pr_time_zone v) (with_time (pr_time v) (with_date (pr_date v) [])))))))
       (s2l "ppcsv") 1 ns).
Lemma from_csv_ok db ns v r : from_csv_record db ns v = Ok r ↔
  fp_part ns ∧ is_Some (abbr_to_tz db (pr_time_zone v)) ∧ r = pp_mk db ns v.
Proof.
  unfold from_csv_record. destruct (builder_new _ _ _) as [b|e|] eqn:E; cbn [rbind].
  - apply builder_new_ok in E as (_&Hn&->). unfold pp_mk. destruct (abbr_to_tz db (pr_time_zone v)) as [o|]; cbn [default].
    + split.
      * intros H. apply Ok_inj in H as <-. by eauto.
      * intros (_ & _ & ->). done.
    + split; [done|]. intros (_ & [? ?] & _). done.
  - split; [done|]. intros (Hn & _). destruct (builder_new_total (s2l "ppcsv") 1 ns) as [H _].
    destruct (H part_pp Hn) as (b & Eb). congruence.
  - by apply builder_new_no_panic in E.
Qed.
Lemma records_ok db ns rows records : rmapM (from_csv_record db ns) rows = Ok records ↔
  (rows = [] ∨ fp_part ns) ∧ (∀ v, v ∈ rows → is_Some (abbr_to_tz db (pr_time_zone v))) ∧ records = pp_mk db ns <$> rows.
Proof.
  rewrite rmapM_ok. revert records. induction rows as [|v rows IH]; intros records.
  - split.
    + intros H. inversion H; subst. split_and!; [by left| |done]. by intros v H0%elem_of_nil.
    + intros (_ & _ & ->). constructor.
  - split.
    + intros H. inversion H as [|? r ? rs Hr Hrs]; subst. apply from_csv_ok in Hr as (Hn & Hz & ->).
      apply IH in Hrs as (_ & Hz' & ->). split_and!; [by right| |done].
      by intros w [->|Hw]%elem_of_cons; [|apply Hz'].
    + intros ([?|Hn] & Hz & ->); [done|]. rewrite fmap_cons. constructor.
      * apply from_csv_ok. split_and!; [done| |done]. apply Hz. left.
      * apply IH. split_and!; [by right| |done]. intros w Hw. apply Hz. by right.
Qed.

(** ** Postings of a row *)
Definition pp_fps (legacy : bool) (ns : str) (v : pp_row) (i : nat) (s : side) : list str :=
  let f := fp_of (s2l "ppcsv") 1 ns (pp_message v i s) in
  match s with Self => [tag f] | Peer => [] end ++ (if legacy then [legacy_tag f] else []).
Definition pp_clean (v : pp_row) : Prop :=
  newline ∉ pr_type v ∧ opt_ok (λ s, newline ∉ s) (pr_name v) ∧ opt_ok (λ s, newline ∉ s) (pr_receipt_id v).
Lemma pp_fps_good legacy ns v i s f : fp_part ns → f ∈ pp_fps legacy ns v i s → good_fp_tag f.
Proof.
  intros Hn. unfold pp_fps. rewrite elem_of_app.
  assert (fp_ok (fp_of (s2l "ppcsv") 1 ns (pp_message v i s))) as Hok by (apply fp_of_ok; [apply part_pp|done]).
  intros [H|H].
  - destruct s; [|by apply elem_of_nil in H]. apply elem_of_list_singleton in H as ->. by apply good_tag.
  - destruct legacy; [|by apply elem_of_nil in H]. apply elem_of_list_singleton in H as ->. by apply good_legacy_tag.
Qed.
Lemma pp_postings_spec ho legacy db ns v i : fp_part ns →
  ∃ c1 c2, pp_form_postings ho legacy (with_index i (pp_mk db ns v)) =
    (Posting ASSETS_UNKNOWN Real (Some (PostingAmount (row_amount v) None None)) (Some (BalAmount (row_balance v)))
       (Some (row_status v)) (into_opt_comment ho c1),
     Posting (peer_account (row_amount v)) Real (Some (PostingAmount (negate_amount (row_amount v)) None None)) None
       (Some (row_status v)) (into_opt_comment ho c2)) ∧
    made (pp_clean v) c1 (extra_tags Self ++ pp_fps legacy ns v i Self) ∧
    made (pp_clean v) c2 (extra_tags Peer ++ pp_fps legacy ns v i Peer).
Proof.
  intros Hn. eexists _, _. split; [reflexivity|].
  assert (∀ s, fp_ok (fp_of (s2l "ppcsv") 1 ns (pp_message v i s))) as Hok by (intros s; apply fp_of_ok; [apply part_pp|done]).
  split.
  - eapply made_perm; [|apply made_tag; [apply good_tag_ok, good_tag, (Hok Self)|];
      apply made_opt_value; [apply key_receipt| |apply made_opt_tag; [|apply made_tag; [apply tag_unknown|apply made_tag; [apply tag_self|apply made_new]]]]].
    + intros t. unfold extra_tags, pp_fps. rewrite !elem_of_cons, !elem_of_app, !elem_of_cons.
      destruct legacy; cbn [from_option]; rewrite ?elem_of_cons, ?elem_of_nil; unfold fp_of, pp_message; cbn; tauto.
    + cbn. intros x Hx (_ & _ & H). by apply H.
    + intros x. destruct legacy; [|done]. intros [= <-]. apply good_tag_ok, good_legacy_tag, (Hok Self).
  - eapply made_perm; [|apply made_opt_value; [apply key_name| |apply made_value; [apply key_type| |
      apply made_opt_tag; [|apply made_tag; [apply tag_unknown|apply made_tag; [apply tag_peer|apply made_new]]]]]].
    + intros t. unfold extra_tags, pp_fps. rewrite !elem_of_app, !elem_of_cons.
      destruct legacy; cbn [from_option app]; rewrite ?elem_of_cons, ?elem_of_nil; unfold fp_of, pp_message; cbn; tauto.
    + cbn. intros x Hx (_ & H & _). by apply H.
    + cbn. by intros (? & _).
    + intros x. destruct legacy; [|done]. intros [= <-]. apply good_tag_ok, good_legacy_tag, (Hok Peer).
Qed.

(** ** Groups *)
Definition group_posts (ho : hash_order) (legacy : bool) (db : tz_db) (ns : str) (g : list pp_row) : list posting :=
  mjoin (imap (λ i v, let '(p1, p2) := pp_form_postings ho legacy (with_index i (pp_mk db ns v)) in [p1; p2]) g).
Lemma mjoin_pairs {A B} (f : nat → A → B * B) l i :
  length (mjoin (imap (λ i x, [(f i x).1; (f i x).2]) l)) = 2 * length l ∧
  ∀ x, l !! i = Some x → mjoin (imap (λ i x, [(f i x).1; (f i x).2]) l) !! (2 * i) = Some (f i x).1 ∧
    mjoin (imap (λ i x, [(f i x).1; (f i x).2]) l) !! (2 * i + 1) = Some (f i x).2.
Proof.
  revert f i. induction l as [|y l IH]; intros f i; [done|]. rewrite imap_cons, mjoin_cons. split.
  - rewrite app_length. destruct (IH (f ∘ S) 0) as [E _]. unfold compose in E. cbn [length].
    etransitivity; [apply f_equal, E|]. lia.
  - intros x. destruct i as [|i].
    + intros [= ->]. done.
    + intros Hx. destruct (IH (f ∘ S) i) as [_ H]. destruct (H x Hx) as [H1 H2]. unfold compose in *.
      replace (2 * S i) with (S (S (2 * i))) by lia. replace (S (S (2 * i)) + 1) with (S (S (2 * i + 1))) by lia. done.
Qed.
Lemma group_posts_lookup ho legacy db ns g :
  length (group_posts ho legacy db ns g) = 2 * length g ∧
  ∀ i v, g !! i = Some v →
    group_posts ho legacy db ns g !! (2 * i) = Some (pp_form_postings ho legacy (with_index i (pp_mk db ns v))).1 ∧
    group_posts ho legacy db ns g !! (2 * i + 1) = Some (pp_form_postings ho legacy (with_index i (pp_mk db ns v))).2.
Proof.
  split.
  - apply (mjoin_pairs (λ i v, pp_form_postings ho legacy (with_index i (pp_mk db ns v))) g 0).
  - intros i v. apply (mjoin_pairs (λ i v, pp_form_postings ho legacy (with_index i (pp_mk db ns v))) g i).
Qed.
Lemma find_name_spec db ns g n : find_map pp_name (pp_mk db ns <$> g) = Some n ↔ first_name g n.
Proof.
  induction g as [|v g IH]; cbn [fmap list_fmap find_map].
  - split; [done|]. by intros (i & r & H & _).
  - change (pp_name (pp_mk db ns v)) with (pr_name v). destruct (pr_name v) as [m|] eqn:Em.
    + split.
      * intros [= ->]. exists 0, v. split_and!; [done|done|]. intros j r' H. lia.
      * intros (i & r & Hi & Hr & Hmin). destruct i as [|i]; [cbn in Hi; by simplify_eq|].
        specialize (Hmin 0 v (Nat.lt_0_succ _) eq_refl). congruence.
    + etransitivity; [apply IH|]. split.
      * intros (i & r & Hi & Hr & Hmin). exists (S i), r. split_and!; [done|done|].
        intros [|j] r' Hj E; [cbn in E; by simplify_eq|]. apply (Hmin j); [lia|done].
      * intros (i & r & Hi & Hr & Hmin). destruct i as [|i]; [cbn in Hi; by simplify_eq|].
        exists i, r. split_and!; [done|done|]. intros j r' Hj E. apply (Hmin (S j)); [lia|done].
Qed.
Lemma imap_fmap_in {A B C} (f : A → B) (g : nat → B → C) l : imap g (f <$> l) = imap (λ i x, g i (f x)) l.
Proof. revert g. induction l as [|x l IH]; intros g; [done|]. rewrite fmap_cons, !imap_cons, IH. done. Qed.
Lemma form_transaction_spec ho legacy tz db ns t g trn :
  pp_form_transaction ho legacy tz (t, pp_mk db ns <$> g) = Ok trn ↔
  ∃ n, first_name g n ∧ trn = Transaction None (tz t) None None None n (group_posts ho legacy db ns g).
Proof.
  unfold pp_form_transaction. cbn [fst snd]. destruct (find_map pp_name (pp_mk db ns <$> g)) as [n|] eqn:E.
  - apply find_name_spec in E as Hn. cbv zeta. rewrite imap_fmap_in. fold (group_posts ho legacy db ns g). split.
    + intros H. apply Ok_inj in H as <-. by exists n.
    + intros (n' & Hn' & ->). apply (find_name_spec db ns) in Hn'. congruence.
  - split; [done|]. intros (n & Hn & _). apply (find_name_spec db ns) in Hn. congruence.
Qed.
Definition row_groups (db : tz_db) (ns : str) (rows : list pp_row) : list (instant * list pp_row) :=
  chunk_by (λ v, pp_datetime (pp_mk db ns v)) rows.
Lemma row_groups_runs db ns rows : (∀ v, v ∈ rows → is_Some (abbr_to_tz db (pr_time_zone v))) → runs db rows (row_groups db ns rows).
Proof.
  intros Hz. split.
  - apply chunk_join.
  - intros t g H. by apply chunk_uniform in H as [? _].
  - intros t g r H Hr. pose proof H as Hg. apply chunk_uniform in H as [_ H]. rewrite <- (H r Hr).
    assert (r ∈ rows) as Hin.
    { rewrite <- (chunk_join (λ v, pp_datetime (pp_mk db ns v)) rows). apply elem_of_list_join. exists g. split; [done|].
      apply elem_of_list_fmap. by exists (t, g). }
    destruct (Hz r Hin) as [o Ho]. exists o. split; [done|]. unfold pp_mk. cbn. by rewrite Ho.
  - intros i t g t' g'. apply chunk_maximal.
Qed.
Lemma pp_import_spec ho legacy tz db ns rows ts : pp_import ho legacy tz db ns rows = Ok ts ↔
  (rows = [] ∨ fp_part ns) ∧ (∀ v, v ∈ rows → is_Some (abbr_to_tz db (pr_time_zone v))) ∧
  Forall2 (λ tg trn, ∃ n, first_name tg.2 n ∧
     trn = Transaction None (tz tg.1) None None None n (group_posts ho legacy db ns tg.2)) (row_groups db ns rows) ts.
Proof.
  unfold pp_import. rewrite rbind_ok. split.
  - intros (records & (Hn & Hz & ->)%records_ok & H). split_and!; [done|done|].
    rewrite chunk_fmap in H. apply rmapM_ok in H. apply Forall2_fmap_l in H.
    eapply Forall2_impl; [exact H|]. intros [t g] trn. cbn [compose fst snd]. apply form_transaction_spec.
  - intros (Hn & Hz & H). exists (pp_mk db ns <$> rows). split; [by apply records_ok|].
    rewrite chunk_fmap. apply rmapM_ok, Forall2_fmap_l. eapply Forall2_impl; [exact H|].
    intros [t g] trn. cbn [compose fst snd]. by rewrite form_transaction_spec.
Qed.

Lemma lookup_bounds {A} (l : list A) n x : l !! n = Some x → n < length l.
Proof. apply lookup_lt_Some. Qed.
Lemma pair_index n : ∃ i s, n = 2 * i + side_nat s.
Proof.
  destruct (Nat.even n) eqn:E.
  - apply Nat.even_spec in E as [i ->]. exists i, Self. cbn. lia.
  - assert (Nat.odd n = true) as H by (unfold Nat.odd; by rewrite E). apply Nat.odd_spec in H as [i ->].
    exists i, Peer. cbn. lia.
Qed.
Lemma group_post_at ho legacy db ns g n p : group_posts ho legacy db ns g !! n = Some p →
  ∃ i s v, n = 2 * i + side_nat s ∧ g !! i = Some v ∧
    p = pick s (pp_form_postings ho legacy (with_index i (pp_mk db ns v))).
Proof.
  intros Hp. destruct (pair_index n) as (i & s & ->). exists i, s.
  destruct (group_posts_lookup ho legacy db ns g) as [Hl Hg]. pose proof (lookup_bounds _ _ _ Hp) as Hb. rewrite Hl in Hb.
  destruct (g !! i) as [v|] eqn:Hv.
  2:{ apply lookup_ge_None in Hv. destruct s; cbn in Hb; lia. }
  exists v. split_and!; [done|done|]. destruct (Hg i v Hv) as [H1 H2]. destruct s; cbn [side_nat pick] in *.
  - rewrite Nat.add_0_r in Hp. congruence.
  - congruence.
Qed.
(** Everything about posting [n] of transaction [k]. *)
Lemma pp_post ho legacy tz db ns rows ts gs k t n p :
  pp_import ho legacy tz db ns rows = Ok ts → runs db rows gs → ts !! k = Some t → t_postings t !! n = Some p →
  fp_part ns ∧ ∃ ti g i s v c, gs !! k = Some (ti, g) ∧ n = 2 * i + side_nat s ∧ g !! i = Some v ∧ v ∈ rows ∧ i < length rows ∧
    p_comment p = into_opt_comment ho c ∧
    made (pp_clean v) c (extra_tags s ++ pp_fps legacy ns v i s).
Proof.
  intros (Hn & Hz & H)%pp_import_spec Hr Hk Hp.
  pose proof (runs_unique _ _ _ _ (row_groups_runs db ns rows Hz) Hr) as Eg. rewrite Eg in H. clear Eg.
  destruct (Forall2_lookup_r _ _ _ _ _ H Hk) as ([ti g] & Hg & nm & _ & ->). cbn [t_postings snd] in Hp.
  destruct (group_post_at _ _ _ _ _ _ _ Hp) as (i & s & v & -> & Hv & ->).
  assert (v ∈ rows) as Hin.
  { rewrite <- (rn_all _ _ _ Hr). apply elem_of_list_join. exists g. split; [by eapply elem_of_list_lookup_2|].
    apply elem_of_list_fmap. exists (ti, g). split; [done|]. by eapply elem_of_list_lookup_2. }
  assert (length g ≤ length rows) as Hlen.
  { rewrite <- (rn_all _ _ _ Hr). rewrite <- (take_drop_middle _ _ _ Hg), fmap_app, fmap_cons.
    rewrite CommentLaws.mjoin_app, mjoin_cons, !app_length. cbn [snd]. lia. }
  assert (fp_part ns) as Hns. { destruct Hn as [->|?]; [by apply elem_of_nil in Hin|done]. }
  split; [done|]. destruct (pp_postings_spec ho legacy db ns v i Hns) as (c1 & c2 & E & M1 & M2). rewrite E.
  pose proof (lookup_bounds _ _ _ Hv).
  exists ti, g, i, s, v, (pick s (c1, c2)). split_and!; [done|done|done|done|lia|..]; by destruct s.
Qed.

Lemma c50 ho legacy tz db ns rows ts : pp_import ho legacy tz db ns rows = Ok ts →
  ∃ gs, runs db rows gs ∧ (∀ gs', runs db rows gs' → gs' = gs) ∧ Forall2 (group_result tz) gs ts.
Proof.
  intros (Hn & Hz & H)%pp_import_spec. pose proof (row_groups_runs db ns rows Hz) as Hr.
  exists (row_groups db ns rows). split_and!; [done|..].
  - intros gs' Hr'. by eapply runs_unique.
  - apply Forall2_same_length_lookup_2; [by eapply Forall2_length|]. intros k [ti g] t Hk Ht.
    destruct (Forall2_lookup_l _ _ _ _ _ H Hk) as (t' & Ht' & nm & Hnm & ->). simplify_eq.
    destruct (group_posts_lookup ho legacy db ns g) as [Hl Hg]. split_and!; [done|done|done|].
    intros i v Hv. cbn [snd] in *. destruct (Hg i v Hv) as [H1 H2].
    assert (fp_part ns) as Hns.
    { destruct Hn as [->|?]; [|done]. done. }
    destruct (pp_postings_spec ho legacy db ns v i Hns) as (c1 & c2 & E & _ & _). rewrite E in H1, H2.
    eexists _, _. split_and!; [exact H1|exact H2|]. split_and!; [by split|done|done| |done|done].
    exists (negate_amount (row_amount v)). split; [apply negate_opposite|done].
Qed.
Lemma c50_fails ho legacy tz db ns rows gs t g : runs db rows gs → (t, g) ∈ gs → (∀ r, r ∈ g → pr_name r = None) →
  ∀ ts, pp_import ho legacy tz db ns rows ≠ Ok ts.
Proof.
  intros Hr Hg Hnone ts Hi. destruct (c50 _ _ _ _ _ _ _ Hi) as (gs' & Hr' & Hu & H). rewrite <- (Hu gs Hr) in H. clear Hu.
  apply elem_of_list_lookup in Hg as (k & Hk). destruct (Forall2_lookup_l _ _ _ _ _ H Hk) as (trn & _ & _ & (i & r & Hir & Hn & _) & _).
  cbn [snd] in *. rewrite (Hnone r) in Hn; [done|]. by eapply elem_of_list_lookup_2.
Qed.
Lemma c50_succeeds ho legacy tz db ns rows gs : fp_part ns →
  (∀ r, r ∈ rows → is_Some (abbr_to_tz db (pr_time_zone r))) → runs db rows gs →
  (∀ t g, (t, g) ∈ gs → ∃ n, first_name g n) → ∃ ts, pp_import ho legacy tz db ns rows = Ok ts.
Proof.
  intros Hn Hz Hr Hnm. pose proof (runs_unique _ _ _ _ (row_groups_runs db ns rows Hz) Hr) as Eg.
  assert (∃ ts, Forall2 (λ tg trn, ∃ n, first_name tg.2 n ∧
     trn = Transaction None (tz tg.1) None None None n (group_posts ho legacy db ns tg.2)) gs ts) as (ts & H).
  { clear -Hnm. induction gs as [|[t g] gs IH]; [by exists []|]. destruct IH as (ts & H).
    - intros t' g' Hin. apply (Hnm t'). by right.
    - destruct (Hnm t g) as (n & Hn); [left|]. eexists (_ :: ts). constructor; [|done]. by exists n. }
  exists ts. apply pp_import_spec. split_and!; [by right|done|by rewrite Eg].
Qed.

(** ** Balance and accounts *)
Lemma sum_value_app c a b : (sum_value c (a ++ b) == sum_value c a + sum_value c b)%Q.
Proof.
  induction a as [|p a IH]; [change (sum_value c b == 0 + sum_value c b)%Q; ring|].
  change (posting_value c p + sum_value c (a ++ b) == posting_value c p + sum_value c a + sum_value c b)%Q. rewrite IH. ring.
Qed.
Lemma pair_cancels c p1 p2 a b : p_amount p1 = Some (PostingAmount a None None) → p_amount p2 = Some (PostingAmount b None None) →
  opposite a b → (sum_value c [p1; p2] == 0)%Q.
Proof.
  intros E1 E2 [Hc Hv]. cbn [sum_value foldr]. unfold posting_value. rewrite E1, E2. cbn [pa_amount]. rewrite Hc.
  destruct (decide _); [rewrite Hv|]; ring.
Qed.
Lemma group_balanced ho legacy db ns g c : fp_part ns → (sum_value c (group_posts ho legacy db ns g) == 0)%Q.
Proof.
  intros Hn. unfold group_posts.
  assert (∀ n, sum_value c (mjoin (imap (λ i v, let '(p1, p2) := pp_form_postings ho legacy (with_index (n + i) (pp_mk db ns v)) in [p1; p2]) g)) == 0)%Q as H; [|apply (H 0)].
  induction g as [|v g IH]; intros n; [reflexivity|]. rewrite imap_cons, mjoin_cons, sum_value_app.
  destruct (pp_postings_spec ho legacy db ns v (n + 0) Hn) as (c1 & c2 & E & _ & _). rewrite E.
  assert (imap ((λ i v0, let '(p1, p2) := pp_form_postings ho legacy (with_index (n + i) (pp_mk db ns v0)) in [p1; p2]) ∘ S) g =
    imap (λ i v0, let '(p1, p2) := pp_form_postings ho legacy (with_index (S n + i) (pp_mk db ns v0)) in [p1; p2]) g) as ->.
  { apply imap_ext. intros i x _. unfold compose. by rewrite Nat.add_succ_r. }
  rewrite IH, pair_cancels; [ring|reflexivity|reflexivity|apply negate_opposite].
Qed.
Lemma pp_trn ho legacy tz db ns rows ts t : pp_import ho legacy tz db ns rows = Ok ts → t ∈ ts →
  fp_part ns ∧ ∃ g, t_postings t = group_posts ho legacy db ns g ∧ g ≠ [].
Proof.
  intros (Hn & Hz & H)%pp_import_spec (k & Hk)%elem_of_list_lookup.
  destruct (Forall2_lookup_r _ _ _ _ _ H Hk) as ([ti g] & Hg & nm & _ & ->). split.
  - destruct Hn as [->|?]; [|done]. done.
  - exists g. split; [done|]. apply elem_of_list_lookup_2, chunk_uniform in Hg as [? _]. done.
Qed.
Lemma c45_pp ho legacy tz db ns rows ts t : pp_import ho legacy tz db ns rows = Ok ts → t ∈ ts → balanced t.
Proof.
  intros Hi Ht. destruct (pp_trn _ _ _ _ _ _ _ _ Hi Ht) as (Hn & g & Eg & _). split; rewrite Eg.
  - intros p (n & Hp)%elem_of_list_lookup. apply group_post_at in Hp as (i & s & v & -> & Hv & ->).
    destruct (pp_postings_spec ho legacy db ns v i Hn) as (c1 & c2 & E & _ & _). rewrite E. destruct s; cbn; eauto.
  - intros c. by apply group_balanced.
Qed.
Lemma c46_pp ho legacy tz db ns rows ts t i own peer : hash_order_ok ho → pp_import ho legacy tz db ns rows = Ok ts → t ∈ ts →
  t_postings t !! (2 * i) = Some own → t_postings t !! (2 * i + 1) = Some peer → sides own peer.
Proof.
  intros Hho Hi Ht H1 H2. destruct (pp_trn _ _ _ _ _ _ _ _ Hi Ht) as (Hn & g & Eg & _). rewrite Eg in H1, H2.
  apply group_post_at in H1 as (i1 & s1 & v & E1 & Hv & ->). apply group_post_at in H2 as (i2 & s2 & v2 & E2 & Hv2 & ->).
  assert (s1 = Self ∧ i1 = i) as [-> ->] by (destruct s1; cbn in E1; lia || (split; [done|lia])).
  assert (s2 = Peer ∧ i2 = i) as [-> ->] by (destruct s2; cbn in E2; lia || (split; [done|lia])). simplify_eq.
  destruct (pp_postings_spec ho legacy db ns v i Hn) as (c1 & c2 & E & M1 & M2). rewrite E. cbn [pick fst snd].
  exists (row_amount v), (negate_amount (row_amount v)). eexists.
  split_and!; [by split|by split|apply negate_opposite|apply peer_account_ok|..].
  - eapply made_posting; [done|exact M1|]. apply elem_of_app. left. right. left.
  - eapply made_posting; [done|exact M2|]. apply elem_of_app. left. right. left.
Qed.

(** ** Fingerprints *)
Lemma c49_pp ho legacy tz db ns rows ts t n p : hash_order_ok ho → pp_import ho legacy tz db ns rows = Ok ts → t ∈ ts →
  t_postings t !! n = Some p → legacy = true ∨ Nat.even n = true → fingerprinted p.
Proof.
  intros Hho Hi (k & Hk)%elem_of_list_lookup Hp Hl.
  destruct (c50 _ _ _ _ _ _ _ Hi) as (gs & Hr & _ & _).
  destruct (pp_post _ _ _ _ _ _ _ _ _ _ _ _ Hi Hr Hk Hp) as (Hn & ti & g & i & s & v & c & _ & -> & _ & _ & _ & Ec & M).
  assert (∃ f, f ∈ pp_fps legacy ns v i s) as (f & Hf).
  { unfold pp_fps. destruct s; [eexists; left|]. destruct legacy; [eexists; left|]. exfalso.
    destruct Hl as [?|Hl]; [done|]. cbn [side_nat] in Hl.
    rewrite Nat.even_add, Nat.even_mul in Hl. done. }
  exists f. split; [by eapply good_is_fp, pp_fps_good|]. unfold has_tag. cbn. rewrite Ec.
  eapply made_survives; [done|exact M|]. apply elem_of_app. by right.
Qed.
Lemma pp_fps_inj legacy ns v v' i i' s s' f : fp_part ns → pp_row_ok v → pp_row_ok v' →
  (N.of_nat i < 2 ^ 64)%N → (N.of_nat i' < 2 ^ 64)%N →
  f ∈ pp_fps legacy ns v i s → f ∈ pp_fps legacy ns v' i' s' →
  (pp_same_hashed v v' ∧ i = i' ∧ s = s') ∨ sha1_collision (pp_message v i s) (pp_message v' i' s').
Proof.
  intros Hn Hv Hv' Hi Hi' Hf Hf'.
  assert (sha1 (pp_message v i s) = sha1 (pp_message v' i' s')) as E.
  { assert (∀ v i s, fp_ok (fp_of (s2l "ppcsv") 1 ns (pp_message v i s))) as Hok by (intros; apply fp_of_ok; [apply part_pp|done]).
    assert (∀ v i s, f ∈ pp_fps legacy ns v i s → f = tag (fp_of (s2l "ppcsv") 1 ns (pp_message v i s)) ∨
      f = legacy_tag (fp_of (s2l "ppcsv") 1 ns (pp_message v i s))) as Hcases.
    { intros w j u. unfold pp_fps. rewrite elem_of_app. intros [H|H].
      - destruct u; [|by apply elem_of_nil in H]. apply elem_of_list_singleton in H. by left.
      - destruct legacy; [|by apply elem_of_nil in H]. apply elem_of_list_singleton in H. by right. }
    apply Hcases in Hf' as [E|E]; apply Hcases in Hf as [->| ->].
    - by apply fp_of_inj in E as [_ E]; [|apply part_pp|done|done].
    - exfalso. by eapply legacy_not_versioned; [|exact E].
    - exfalso. symmetry in E. by eapply legacy_not_versioned; [|exact E].
    - apply legacy_tag_inj in E as [_ E]; [|done|done]. cbn [fp_value fp_of] in E. by apply into_base64_inj. }
  destruct (decide (pp_message v i s = pp_message v' i' s')) as [Em|Em]; [|by right].
  left. by apply pp_message_inj in Em.
Qed.
Lemma same_hashed_instant db v v' t t' : pp_same_hashed v v' → row_instant db v t → row_instant db v' t' → t = t'.
Proof.
  intros (E1&E2&E3&_) (o & Ho & ->) (o' & Ho' & ->). rewrite E1, E2. rewrite E3 in Ho. congruence.
Qed.
Lemma c51_key ho legacy tz db ns rows ts gs k k' t t' n n' p p' : hash_order_ok ho → rows_ok rows →
  pp_import ho legacy tz db ns rows = Ok ts → runs db rows gs →
  ts !! k = Some t → ts !! k' = Some t' → t_postings t !! n = Some p → t_postings t' !! n' = Some p' →
  share_fp (posting_internal_of p) (posting_internal_of p') →
  (n = n' ∧ fst <$> gs !! k = fst <$> gs !! k') ∨ groups_collide gs.
Proof.
  intros Hho [Hlen Hrows] Hi Hr Hk Hk' Hp Hp' (f & [Hff Hf] & [_ Hf']).
  destruct (pp_post _ _ _ _ _ _ _ _ _ _ _ _ Hi Hr Hk Hp) as (Hn & ti & g & i & s & v & c & Hg & -> & Hv & Hin & Hlt & Ec & M).
  destruct (pp_post _ _ _ _ _ _ _ _ _ _ _ _ Hi Hr Hk' Hp') as (_ & ti' & g' & i' & s' & v' & c' & Hg' & -> & Hv' & Hin' & Hlt' & Ec' & M').
  destruct (Hrows v Hin) as (Hok & Hc1 & Hc2 & Hc3). destruct (Hrows v' Hin') as (Hok' & Hc1' & Hc2' & Hc3').
  unfold has_tag in Hf, Hf'. cbn in Hf, Hf'. rewrite Ec in Hf. rewrite Ec' in Hf'.
  apply (made_exact (pp_clean v) _ _ _ _ Hho ltac:(done) M) in Hf. apply (made_exact (pp_clean v') _ _ _ _ Hho ltac:(done) M') in Hf'.
  apply elem_of_app in Hf as [Hf|Hf]; [by apply extra_not_fp in Hf|].
  apply elem_of_app in Hf' as [Hf'|Hf']; [by apply extra_not_fp in Hf'|].
  assert (N.of_nat i < 2 ^ 64)%N as Hb by lia. assert (N.of_nat i' < 2 ^ 64)%N as Hb' by lia.
  destruct (pp_fps_inj _ _ _ _ _ _ _ _ _ Hn Hok Hok' Hb Hb' Hf Hf') as [(Hs & -> & ->)|Hcol].
  - left. split; [done|]. rewrite Hg, Hg'. cbn. f_equal. eapply same_hashed_instant; [exact Hs|..].
    + eapply (rn_uniform _ _ _ Hr); by eapply elem_of_list_lookup_2.
    + eapply (rn_uniform _ _ _ Hr); by eapply elem_of_list_lookup_2.
  - right. by exists k, k', i, i', ti, ti', g, g', v, v', s, s'.
Qed.
Lemma c51_group ho legacy tz db ns rows ts gs t i j p q : hash_order_ok ho → rows_ok rows →
  pp_import ho legacy tz db ns rows = Ok ts → runs db rows gs → t ∈ ts →
  t_postings t !! i = Some p → t_postings t !! j = Some q → i ≠ j →
  share_fp (posting_internal_of p) (posting_internal_of q) → groups_collide gs.
Proof.
  intros Hho Hok Hi Hr (k & Hk)%elem_of_list_lookup Hp Hq Hne Hs.
  by destruct (c51_key _ _ _ _ _ _ _ _ _ _ _ _ _ _ _ _ Hho Hok Hi Hr Hk Hk Hp Hq Hs) as [[? _]|?].
Qed.
Lemma all_posts_split ts n p : all_posts (as_merged ts) !! n = Some p →
  ∃ k t i q, ts !! k = Some t ∧ t_postings t !! i = Some q ∧ p = posting_internal_of q ∧
    n = length (all_posts (as_merged (take k ts))) + i.
Proof.
  revert n. induction ts as [|t ts IH]; intros n; [done|]. rewrite all_posts_cons.
  intros [Hn|[Hl Hn]]%lookup_app_Some.
  - rewrite list_lookup_fmap in Hn. destruct (t_postings t !! n) as [q|] eqn:Eq; [|done]. cbn in Hn. injection Hn as <-.
    exists 0, t, n, q. done.
  - apply IH in Hn as (k & t' & i & q & Hk & Hq & -> & En). exists (S k), t', i, q. split_and!; [done|done|done|].
    cbn [take]. rewrite all_posts_cons, app_length. lia.
Qed.
Lemma c51_all ho legacy tz db ns rows ts gs i j p q : hash_order_ok ho → rows_ok rows →
  pp_import ho legacy tz db ns rows = Ok ts → runs db rows gs → NoDup (gs.*1) →
  all_posts (as_merged ts) !! i = Some p → all_posts (as_merged ts) !! j = Some q → i ≠ j →
  share_fp p q → groups_collide gs.
Proof.
  intros Hho Hok Hi Hr Hnd (k & t & n & p' & Hk & Hn & -> & ->)%all_posts_split (k' & t' & n' & q' & Hk' & Hn' & -> & ->)%all_posts_split Hne Hs.
  destruct (c51_key _ _ _ _ _ _ _ _ _ _ _ _ _ _ _ _ Hho Hok Hi Hr Hk Hk' Hn Hn' Hs) as [[-> E]|?]; [|done].
  destruct Hne. destruct (c50 _ _ _ _ _ _ _ Hi) as (gs' & Hr' & Hu & HF). rewrite <- (Hu gs Hr) in HF.
  destruct (Forall2_lookup_r _ _ _ _ _ HF Hk) as ([ti g] & Hg & _). destruct (Forall2_lookup_r _ _ _ _ _ HF Hk') as ([ti' g'] & Hg' & _).
  rewrite Hg, Hg' in E. cbn in E. injection E as <-. assert (k = k') as ->; [|done].
  eapply NoDup_lookup; [exact Hnd|..]; rewrite list_lookup_fmap.
  - by rewrite Hg.
  - by rewrite Hg'.
Qed.

(** ** Rows that differ in status or receipt only *)
Lemma pp_post_fps ho legacy tz db ns rows ts gs k t n p : hash_order_ok ho → rows_ok rows →
  pp_import ho legacy tz db ns rows = Ok ts → runs db rows gs → ts !! k = Some t → t_postings t !! n = Some p →
  ∃ ti g i s v, gs !! k = Some (ti, g) ∧ n = 2 * i + side_nat s ∧ g !! i = Some v ∧ v ∈ rows ∧
    fp_part ns ∧ (∀ t, has_tag (posting_internal_of p) t ↔ t ∈ extra_tags s ++ pp_fps legacy ns v i s) ∧
    ∀ f, has_fp (posting_internal_of p) f ↔ f ∈ pp_fps legacy ns v i s.
Proof.
  intros Hho [Hlen Hrows] Hi Hr Hk Hp.
  destruct (pp_post _ _ _ _ _ _ _ _ _ _ _ _ Hi Hr Hk Hp) as (Hn & ti & g & i & s & v & c & Hg & -> & Hv & Hin & Hlt & Ec & M).
  destruct (Hrows v Hin) as (Hok & Hc1 & Hc2 & Hc3).
  assert (∀ t, has_tag (posting_internal_of p) t ↔ t ∈ extra_tags s ++ pp_fps legacy ns v i s) as Ht.
  { intros f. unfold has_tag. cbn. rewrite Ec. apply (made_exact (pp_clean v) _ _ _ _ Hho ltac:(done) M). }
  exists ti, g, i, s, v. split_and!; [done|done|done|done|done|done|].
  intros f. unfold has_fp. rewrite Ht, elem_of_app. split.
  - intros [Hf [He|He]]; [by apply extra_not_fp in He|done].
  - intros Hf. split; [by eapply good_is_fp, pp_fps_good|by right].
Qed.
Lemma pp_same_sym r r' : pp_same_hashed r r' → pp_same_hashed r' r.
Proof. unfold pp_same_hashed. naive_solver. Qed.
Lemma runs_same db rows rows' gs : Forall2 pp_same_hashed rows rows' → runs db rows gs →
  ∃ gs', runs db rows' gs' ∧ Forall2 (λ a b, a.1 = b.1 ∧ Forall2 pp_same_hashed a.2 b.2) gs gs'.
Proof.
  intros HF Hr.
  assert (∃ gs', mjoin (snd <$> gs') = rows' ∧ Forall2 (λ a b, a.1 = b.1 ∧ Forall2 pp_same_hashed a.2 b.2) gs gs') as (gs' & Hj & HG).
  { destruct Hr as [<- _ _ _]. clear -HF. revert rows' HF. induction gs as [|[t g] gs IH]; intros rows' HF.
    - cbn in HF. apply Forall2_nil_inv_l in HF as ->. by exists [].
    - rewrite fmap_cons, mjoin_cons in HF. apply Forall2_app_inv_l in HF as (l1 & l2 & H1 & H2 & ->).
      destruct (IH l2 H2) as (gs' & <- & HG). exists ((t, l1) :: gs'). split; [done|]. by constructor. }
  exists gs'. split; [|done]. constructor; [done|..].
  - intros t g (k & Hk)%elem_of_list_lookup. destruct (Forall2_lookup_r _ _ _ _ _ HG Hk) as ([t0 g0] & Hk0 & Et & Hg). cbn in *. subst t0.
    intros ->. apply Forall2_nil_inv_r in Hg as ->. by apply (rn_nonempty _ _ _ Hr t []); [eapply elem_of_list_lookup_2|].
  - intros t g r (k & Hk)%elem_of_list_lookup (i & Hi)%elem_of_list_lookup.
    destruct (Forall2_lookup_r _ _ _ _ _ HG Hk) as ([t0 g0] & Hk0 & Et & Hg). cbn in *. subst t0.
    destruct (Forall2_lookup_r _ _ _ _ _ Hg Hi) as (r0 & Hr0 & (E1&E2&E3&_)).
    destruct (rn_uniform _ _ _ Hr t g0 r0) as (o & Ho & ->); [by eapply elem_of_list_lookup_2|by eapply elem_of_list_lookup_2|].
    exists o. rewrite <- E1, <- E2, <- E3. done.
  - intros k t g t' g' Hk Hk'. destruct (Forall2_lookup_r _ _ _ _ _ HG Hk) as ([t0 g0] & Hk0 & Et & _).
    destruct (Forall2_lookup_r _ _ _ _ _ HG Hk') as ([t1 g1] & Hk1 & Et' & _). cbn in *. subst.
    by eapply (rn_maximal _ _ _ Hr).
Qed.
Lemma same_fps_row legacy ns v v' i s : pp_same_hashed v v' → pp_fps legacy ns v i s = pp_fps legacy ns v' i s.
Proof.
  intros H. unfold pp_fps. assert (pp_message v i s = pp_message v' i s) as ->; [|done].
  unfold pp_message. destruct H as (->&->&->&->&->&->&->&->). done.
Qed.
Lemma c51_stable ho ho' legacy tz tz' db ns rows rows' ts ts' : hash_order_ok ho → hash_order_ok ho' →
  rows_ok rows → rows_ok rows' → Forall2 pp_same_hashed rows rows' →
  pp_import ho legacy tz db ns rows = Ok ts → pp_import ho' legacy tz' db ns rows' = Ok ts' →
  Forall2 (λ t t', Forall2 same_fps (t_postings t) (t_postings t')) ts ts'.
Proof.
  intros Hho Hho' Hok Hok' HF Hi Hi'. destruct (c50 _ _ _ _ _ _ _ Hi) as (gs & Hr & Hu & HG).
  destruct (runs_same _ _ _ _ HF Hr) as (gs' & Hr' & HS). destruct (c50 _ _ _ _ _ _ _ Hi') as (gs2 & _ & Hu' & HG').
  rewrite <- (Hu' gs' Hr') in HG'. clear Hu Hu' gs2.
  apply Forall2_same_length_lookup_2.
  { rewrite <- (Forall2_length _ _ _ HG), <- (Forall2_length _ _ _ HG'). by eapply Forall2_length. }
  intros k t t' Hk Hk'. destruct (Forall2_lookup_r _ _ _ _ _ HG Hk) as ([ti g] & Hg & _ & _ & Hl & _).
  destruct (Forall2_lookup_r _ _ _ _ _ HG' Hk') as ([ti' g'] & Hg' & _ & _ & Hl' & _).
  destruct (Forall2_lookup_lr _ _ _ _ _ _ HS Hg Hg') as [_ Hgg]. cbn [snd] in *.
  apply Forall2_same_length_lookup_2. { rewrite Hl, Hl'. by rewrite (Forall2_length _ _ _ Hgg). }
  intros n p p' Hp Hp'.
  destruct (pp_post_fps _ _ _ _ _ _ _ _ _ _ _ _ Hho Hok Hi Hr Hk Hp) as (ti1 & g1 & i & s & v & Hg1 & -> & Hv & _ & _ & _ & H1).
  destruct (pp_post_fps _ _ _ _ _ _ _ _ _ _ _ _ Hho' Hok' Hi' Hr' Hk' Hp') as (ti2 & g2 & i2 & s2 & v' & Hg2 & En & Hv' & _ & _ & _ & H2).
  assert (i2 = i ∧ s2 = s) as [-> ->]. { destruct s, s2; cbn in En; split; (done || lia). }
  simplify_eq. intros f. rewrite H1, H2. rewrite (same_fps_row legacy ns v v' i s); [done|]. by eapply Forall2_lookup_lr.
Qed.

(** ** Merging *)
Lemma pp_mergeable ho tz db ns rows ts p : hash_order_ok ho → rows_ok rows →
  pp_import ho true tz db ns rows = Ok ts → p ∈ all_posts (as_merged ts) → mergeable p.
Proof.
  intros Hho Hok Hi (n & Hn)%elem_of_list_lookup. apply all_posts_split in Hn as (k & t & j & q & Hk & Hq & -> & _).
  destruct (c50 _ _ _ _ _ _ _ Hi) as (gs & Hr & _ & _).
  destruct (pp_post_fps _ _ _ _ _ _ _ _ _ _ _ _ Hho Hok Hi Hr Hk Hq) as (ti & g & i & s & v & _ & -> & _ & _ & Hns & Ht & Hf).
  split.
  - eexists. apply Hf. unfold pp_fps. apply elem_of_app. right. left.
  - intros u [Hu|Hu]%Ht%elem_of_app; [by apply extra_not_candidate in Hu|]. by eapply good_is_fp, pp_fps_good.
Qed.
Lemma c69 ho tz db ns rows ts gs ho1 ho2 : hash_order_ok ho → hash_order_ok ho1 → hash_order_ok ho2 → rows_ok rows →
  pp_import ho true tz db ns rows = Ok ts → runs db rows gs → NoDup (gs.*1) → ¬ groups_collide gs →
  ∃ m, merge ho1 merger_new (as_merged ts) = (m, Ok []) ∧
       build ho2 m = Ok (stable_sort (by_key tp_date) (as_merged ts)).
Proof.
  intros Hho H1 H2 Hok Hi Hr Hnd Hcol.
  assert (∀ tp, tp ∈ as_merged ts → tp_posts tp ≠ []) as Hne.
  { intros tp (t & -> & Ht)%elem_of_list_fmap. destruct (pp_trn _ _ _ _ _ _ _ _ Hi Ht) as (_ & g & E & Hg).
    cbn. rewrite E. intros E0. apply fmap_nil_inv in E0. destruct (group_posts_lookup ho true db ns g) as [Hl _].
    rewrite E0 in Hl. destruct g; [done|]. cbn in Hl. lia. }
  destruct (from_empty ho1 ho2 (as_merged ts) H1 H2) as (m & Hm & Hb).
  - intros p Hp. apply (pp_mergeable ho tz db ns rows ts p Hho Hok Hi Hp).
  - intros i j p q Hi' Hj Hsh. destruct (decide (i = j)) as [|Hij]; [done|]. destruct Hcol.
    eapply (c51_all ho true tz db ns rows ts gs i j p q); done.
  - exists m. split.
    + rewrite Hm. f_equal. f_equal.
      destruct (filter _ _) as [|x l] eqn:E; [done|]. assert (x ∈ x :: l) as Hx by left. rewrite <- E in Hx.
      apply elem_of_list_filter in Hx as [Hx1 Hx2]. by destruct (Hne x).
    + rewrite Hb. f_equal. f_equal. apply filter_all. done.
Qed.

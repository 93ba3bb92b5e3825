(** The same statement imported in two formats. *)
From Verif Require Import MergeClaims.
From Verif Require Import Base Types CommentModel MergeModel SpecBase BaseProofs MergeSpec MergeLemmas MergeProofs MergeLaws4 NwCsvModel PaypalModel CommentClaims FingerprintClaims
  ImportClaims FingerprintLaws ImportProofs ImportLaws OcrModel PdfModel PdfClaims PdfLaws PiecesClaims PiecesOrder TwinClaims Twin StmtTwinClaims.
From Coq Require Import Lia QArith Lqa.
Local Open Scope nat_scope.

Theorem two_sources_reordered w extra' B ho1 ho2 : two_sources w extra' → B ≡ₚ second_source w extra' →
  hash_order_ok ho1 → hash_order_ok ho2 →
  ∃ m1 m, merge ho1 merger_new (first_source w) = (m1, Ok []) ∧ merge ho2 m1 B = (m, Ok []) ∧
    ∀ hb out, hash_order_ok hb → build hb m = Ok out →
      same_up_to_order (stable_sort (by_key tp_date) ((joined <$> w) ++ extra')) out.
Proof.
  intros Hts Hp Hho1 Hho2.
  destruct (two_sources_joined w extra' Hts ho1 ho1 ho1 Hho1 Hho1 Hho1) as (m1 & m & E1 & E2 & Eb & Hr & Hj).
  symmetry in Hp. destruct (set_order m1 _ ho1 ho2 _ B m [] Hr Hj Hho1 Hho2 Hp E2) as (m2 & un2 & E3 & (un2' & Hu & HF) & H).
  apply Forall2_nil_inv_l in HF as ->. apply Permutation_nil_r in Hu as ->.
  exists m1, m2. split_and!; [done|done|]. intros hb out Hhb Hb. exact (H ho1 hb _ _ Hho1 Hhb Eb Hb).
Qed.

(** An imported transaction: own posting and peer. *)
Definition two_sides (t : transaction) : Prop := ∃ own peer, t_postings t = [own; peer] ∧ sides own peer.
Definition no_peer_balance (t : transaction) : Prop := ∀ own peer, t_postings t = [own; peer] → p_balance peer = None.

Lemma some_pair {A B} (a c : A) (b d : B) : Some (a, b) = Some (c, d) → a = c ∧ b = d.
Proof. by intros [= -> ->]. Qed.
Lemma posts_of t own peer : t_postings t = [own; peer] →
  tp_posts (transaction_postings_of t) = [posting_internal_of own; posting_internal_of peer].
Proof. intros E. unfold transaction_postings_of. cbn [tp_posts]. by rewrite E. Qed.
Lemma own_fun t a a' : own_amount_is t a → own_amount_is t a' → a = a'.
Proof. intros (? & ? & E & Ha) (? & ? & E' & Ha'). congruence. Qed.
Lemma own_exists t : two_sides t → ∃ a, own_amount_is t a.
Proof. intros (own & peer & E & a & b & acct & [_ Ha] & _). exists a, own, [peer]. done. Qed.
Lemma post_size t a b p : two_sides t → own_amount_is t a → tp_posts (transaction_postings_of t) !! b = Some p →
  unknown_account p ∧ ∃ c, p_amount (pi_raw p) = Some (PostingAmount c None None) ∧ a_commodity c = a_commodity a ∧
    ((b = 0 ∧ c = a) ∨ (b = 1 ∧ (dec_value (a_quantity c) == - dec_value (a_quantity a))%Q)).
Proof.
  intros (own & peer & E & x & y & acct & [_ Hx] & [_ Hy] & [Hc Hv] & _ & Ht1 & Ht2) Ha Hb.
  assert (a = x) as -> by (eapply own_fun; [done|]; by exists own, [peer]).
  rewrite (posts_of t own peer E) in Hb. destruct b as [|[|b]]; simplify_eq/=.
  - split; [exact Ht1|]. exists x. split; [exact Hx|]. split; [done|]. by left.
  - split; [exact Ht2|]. exists y. split; [exact Hy|]. split; [done|]. by right.
Qed.
Lemma soft_sizes p q c c' : p_amount (pi_raw p) = Some (PostingAmount c None None) → p_amount (pi_raw q) = Some (PostingAmount c' None None) →
  soft_match p q → same_amount c c'.
Proof. intros Hp Hq (H & _). rewrite Hp, Hq in H. by destruct H. Qed.
Lemma date_of t : tp_date (transaction_postings_of t) = t_date t.
Proof. by destruct t. Qed.

Lemma perm_posts {A B : list transaction_postings} : A ≡ₚ B → all_posts A ≡ₚ all_posts B.
Proof. unfold all_posts. by intros ->. Qed.
Lemma fps_distinct_perm ps qs : ps ≡ₚ qs → (∀ p, p ∈ ps → mergeable p) → fps_distinct ps → fps_distinct qs.
Proof.
  intros Hp Hm Hd.
  assert (NoDup ps) as Hn.
  { apply NoDup_alt. intros i j p Hi Hj. apply (Hd i j p p Hi Hj). destruct (Hm p) as [(f & Hf) _]; [by eapply elem_of_list_lookup_2|]. by exists f. }
  assert (NoDup qs) as Hn' by by rewrite <- Hp.
  intros i j p q Hi Hj Hs.
  assert (p = q) as ->; [|by eapply NoDup_lookup].
  apply elem_of_list_lookup_2 in Hi, Hj. rewrite <- Hp in Hi, Hj. apply elem_of_list_lookup in Hi as [a Ha], Hj as [b Hb].
  pose proof (Hd a b p q Ha Hb Hs) as ->. congruence.
Qed.

Section agree.
  Variables (w : aligned) (new ts' : list transaction).
  Hypothesis Hag : statements_agree w new.
  Hypothesis Hperm : ts' ≡ₚ omap snd w ++ new.
  Hypothesis Hs1 : ∀ t, t ∈ w.*1 → two_sides t.
  Hypothesis Hs2 : ∀ t, t ∈ ts' → two_sides t ∧ no_peer_balance t.
  Hypothesis Hm : ∀ p, p ∈ all_posts (as_merged w.*1) ++ all_posts (as_merged ts') → mergeable p.
  Hypothesis Hd1 : fps_distinct (all_posts (as_merged w.*1)).
  Hypothesis Hd2 : fps_distinct (all_posts (as_merged ts')).
  Hypothesis Hd12 : ∀ p q, p ∈ all_posts (as_merged w.*1) → q ∈ all_posts (as_merged ts') → ¬ share_fp p q.

  Definition tws : paired :=
    (λ x : transaction * option transaction, (transaction_postings_of x.1,
      (λ t', (transaction_postings_of t', tp_posts (transaction_postings_of t'))) <$> x.2)) <$> w.
  Lemma tws_first : first_source tws = as_merged w.*1.
  Proof. unfold first_source, tws, as_merged. rewrite <- !list_fmap_compose. done. Qed.
  Lemma tws_second : second_source tws (as_merged new) = as_merged (omap snd w ++ new).
  Proof.
    unfold second_source, tws, as_merged. rewrite fmap_app. f_equal.
    clear. induction w as [|[t [t'|]] l IH]; [done|..].
    - cbn [fmap list_fmap omap list_omap fst snd option_fmap option_map]. f_equal. exact IH.
    - exact IH.
  Qed.
  Lemma tws_perm : as_merged ts' ≡ₚ second_source tws (as_merged new).
  Proof using Hperm. rewrite tws_second. unfold as_merged. by rewrite Hperm. Qed.
  Lemma w_lookup a tp o : tws !! a = Some (tp, o) → ∃ t ot, w !! a = Some (t, ot) ∧ tp = transaction_postings_of t ∧
    o = (λ t', (transaction_postings_of t', tp_posts (transaction_postings_of t'))) <$> ot.
  Proof. unfold tws. rewrite list_lookup_fmap. intros ([t ot] & E & Hw)%fmap_Some. injection Hw as -> ->. eauto. Qed.
  Lemma w_first a t ot : w !! a = Some (t, ot) → w.*1 !! a = Some t.
  Proof. intros H. by rewrite list_lookup_fmap, H. Qed.
  Lemma w_second t t' : (t, Some t') ∈ w → t' ∈ ts'.
  Proof using Hperm. intros H. rewrite Hperm. apply elem_of_app. left. apply elem_of_list_omap. by exists (t, Some t'). Qed.
  Lemma w_sides a t ot : w !! a = Some (t, ot) → two_sides t.
  Proof using Hs1. intros H. apply Hs1. eapply elem_of_list_lookup_2, w_first, H. Qed.

  Lemma tws_ok : two_sources tws (as_merged new).
  Proof using Hag Hperm Hs1 Hs2 Hm Hd1 Hd2 Hd12.
    split.
    - intros p [H|H]%elem_of_app; apply Hm, elem_of_app; [left|right].
      + by rewrite <- tws_first.
      + by rewrite (perm_posts tws_perm).
    - rewrite tws_first. eapply (fps_distinct_perm (all_posts (as_merged w.*1) ++ all_posts (as_merged ts'))); [|done|].
      + by rewrite (perm_posts tws_perm).
      + intros i j p q [Hi|[Hil Hi]]%lookup_app_Some [Hj|[Hjl Hj]]%lookup_app_Some Hs.
        * by apply (Hd1 i j p q).
        * exfalso. eapply (Hd12 p q); [by eapply elem_of_list_lookup_2..|done].
        * exfalso. eapply (Hd12 q p); [by eapply elem_of_list_lookup_2..|]. destruct Hs as (f & H1 & H2). by exists f.
        * pose proof (Hd2 _ _ p q Hi Hj Hs). lia.
    - intros tp Htp. assert (∃ t, two_sides t ∧ tp = transaction_postings_of t) as (t & (own & peer & E & _) & ->).
      { apply elem_of_app in Htp as [Htp|Htp].
        - rewrite tws_first in Htp. apply elem_of_list_fmap in Htp as (t & -> & Ht). eauto.
        - apply elem_of_list_fmap in Htp as (t & -> & Ht). exists t. split; [|done]. apply Hs2. rewrite Hperm. apply elem_of_app. by right. }
      by rewrite (posts_of t own peer E).
    - intros tp tp' qs Hin. apply elem_of_list_lookup in Hin as [a Ha]. apply w_lookup in Ha as (t & ot & Ha & -> & E).
      destruct ot as [t'|]; [|done]. apply some_pair in E as [-> ->].
      assert ((t, Some t') ∈ w) as Hin by by eapply elem_of_list_lookup_2.
      destruct (sa_same _ _ Hag t t' Hin) as (Hd & (x & x' & Hx & Hx' & Hxx) & Hbal).
      pose proof (w_sides a t _ Ha) as Hsd. destruct (Hs2 t' (w_second t t' Hin)) as [Hsd' Hnb].
      rewrite !date_of. split_and!; [done|done|].
      pose proof Hsd as (own & peer & Eo & Ho). pose proof Hsd' as (own' & peer' & Eo' & Ho').
      rewrite (posts_of t own peer Eo), (posts_of t' own' peer' Eo').
      rename Hsd into HT. rename Hsd' into HT'.
      pose proof (posts_of t own peer Eo) as Hp. pose proof (posts_of t' own' peer' Eo') as Hp'.
      destruct (post_size t x 0 (posting_internal_of own) HT Hx) as (U0 & c0 & A0 & C0 & V0); [by rewrite Hp|].
      destruct (post_size t x 1 (posting_internal_of peer) HT Hx) as (U1 & c1 & A1 & C1 & V1); [by rewrite Hp|].
      destruct (post_size t' x' 0 (posting_internal_of own') HT' Hx') as (U0' & c0' & A0' & C0' & V0'); [by rewrite Hp'|].
      destruct (post_size t' x' 1 (posting_internal_of peer') HT' Hx') as (U1' & c1' & A1' & C1' & V1'); [by rewrite Hp'|].
      destruct V0 as [[_ ->]|[? _]], V1 as [[? _]|[_ V1]], V0' as [[_ ->]|[? _]], V1' as [[? _]|[_ V1']]; try lia.
      destruct Hxx as [Hxv Hxc]. apply List.Forall2_cons; [|apply List.Forall2_cons; [|apply List.Forall2_nil]].
      + split_and!.
        * rewrite A0, A0'. done.
        * intros y z Hy Hz. by eapply (Hbal own own').
        * done.
      + split_and!.
        * rewrite A1, A1'. split; [|done]. split; [|cbn; congruence]. cbn [pa_amount]. rewrite V1, V1', Hxv. reflexivity.
        * intros y z Hy Hz. specialize (Hnb own' peer' Eo'). cbn in Hz. congruence.
        * done.
    - intros a a' b b' tp o tp' tp'' qs p q Ha Ha' Hb Hb' Hd Hs.
      apply w_lookup in Ha as (t & ot & Ha & -> & _). apply w_lookup in Ha' as (t1 & ot1 & Ha' & _ & E).
      destruct ot1 as [t'|]; [|done]. apply some_pair in E as [-> ->].
      assert ((t1, Some t') ∈ w) as Hin by by eapply elem_of_list_lookup_2.
      destruct (sa_same _ _ Hag t1 t' Hin) as (Hd' & (x1 & x' & Hx1 & Hx' & Hxv & Hxc) & _).
      pose proof (w_sides a t _ Ha) as HT. destruct (Hs2 t' (w_second t1 t' Hin)) as [HT' _].
      destruct (own_exists t HT) as [x Hx].
      destruct (post_size t x b p HT Hx Hb) as (_ & c & A & C & V). destruct (post_size t' x' b' q HT' Hx' Hb') as (_ & c' & A' & C' & V').
      destruct (soft_sizes p q c c' A A' Hs) as [Hcv Hcc]. rewrite !date_of in Hd.
      assert (a = a') as ->.
      { destruct (decide (a = a')) as [|Hne]; [done|]. exfalso.
        eapply (sa_apart _ _ Hag a a' t t1 x x1); [by apply lookup_app_l_Some, (w_first a t ot)|by apply lookup_app_l_Some, (w_first a' t1 (Some t'))|done|congruence|done|done|].
        split; [congruence|]. destruct V as [[_ ->]|[_ V]], V' as [[_ ->]|[_ V']]; [left|right|right|left]; lra. }
      split; [done|]. rewrite Ha in Ha'. injection Ha' as <- _. assert (x = x1) as <- by by eapply own_fun.
      assert (¬ (dec_value (a_quantity x) == 0)%Q) as Hnz by (eapply (sa_nonzero _ _ Hag t x); [eapply elem_of_list_lookup_2, w_first, Ha|done]).
      destruct V as [[-> ->]|[-> V]], V' as [[-> ->]|[-> V']]; [done| | |done]; exfalso; apply Hnz; lra.
    - intros tp tp' p q Htp Htp' Hp Hq Hd Hs. rewrite tws_first in Htp.
      apply elem_of_list_fmap in Htp as (t & -> & Ht). apply elem_of_list_fmap in Htp' as (t' & -> & Ht').
      pose proof (Hs1 t Ht) as HT. destruct (Hs2 t') as [HT' _]; [rewrite Hperm; apply elem_of_app; by right|].
      destruct (own_exists t HT) as [x Hx]. destruct (own_exists t' HT') as [x' Hx'].
      apply elem_of_list_lookup in Hp as [b Hb], Hq as [b' Hb'].
      destruct (post_size t x b p HT Hx Hb) as (_ & c & A & C & V). destruct (post_size t' x' b' q HT' Hx' Hb') as (_ & c' & A' & C' & V').
      destruct (soft_sizes p q c c' A A' Hs) as [Hcv Hcc]. rewrite !date_of in Hd.
      apply elem_of_list_lookup in Ht as [i Hi], Ht' as [k Hk]. pose proof (lookup_lt_Some _ _ _ Hi).
      eapply (sa_apart _ _ Hag i (length w.*1 + k) t t' x x'); [by apply lookup_app_l_Some|by rewrite lookup_app_plus|lia|done|done|done|].
      split; [congruence|]. destruct V as [[_ ->]|[_ V]], V' as [[_ ->]|[_ V']]; [left|right|right|left]; lra.
  Qed.

  Theorem agree_merge ho1 ho2 : hash_order_ok ho1 → hash_order_ok ho2 →
    ∃ m1 m, merge ho1 merger_new (as_merged w.*1) = (m1, Ok []) ∧ merge ho2 m1 (as_merged ts') = (m, Ok []) ∧
      ∀ hb out, hash_order_ok hb → build hb m = Ok out →
        same_up_to_order (stable_sort (by_key tp_date) ((payment <$> w) ++ as_merged new)) out.
  Proof using Hag Hperm Hs1 Hs2 Hm Hd1 Hd2 Hd12.
    intros H1 H2. destruct (two_sources_reordered tws (as_merged new) (as_merged ts') ho1 ho2 tws_ok tws_perm H1 H2) as (m1 & m & E1 & E2 & H).
    rewrite tws_first in E1. exists m1, m. split_and!; [done|done|]. intros hb out Hhb Hb. specialize (H hb out Hhb Hb).
    unfold tws in H. rewrite <- list_fmap_compose in H. exact H.
  Qed.
End agree.

(** A CSV statement and a PDF statement. *)
Lemma csv_pdf_fps pd ho o records ns ts name rs E ho' o' doc ns' ts' p q :
  hash_order_ok ho → parser_ok pd → fields_ok records → nw_csv_import pd ho o records = Ok (ns, ts) →
  statement_reads pd records name rs → hash_order_ok ho' → pdf_import E ho' o' doc = Ok (ns', ts') →
  (nw_legacy o = false ∨ ns ≠ ns') →
  p ∈ all_posts (as_merged ts) → q ∈ all_posts (as_merged ts') → ¬ share_fp p q.
Proof.
  intros Hho Hpd Hf Him Hs Hho' Him' Hleg [i Hi]%elem_of_list_lookup [k Hk]%elem_of_list_lookup (f & [Hff Hfp] & [_ Hfq]).
  pose proof Him' as (name' & ls & skip & gs & _ & _ & Hls & Hg & _)%c66_only.
  destruct (import_post _ _ _ _ _ _ _ _ _ _ Hho Hpd Hf Him Hs Hi) as (k1 & s & r & a & _ & _ & _ & _ & _ & Hpart & Ht).
  destruct (pdf_post _ _ _ _ _ _ _ _ _ _ _ Hho' Him' Hls Hg Hk) as (k2 & s' & g & m & b & t & _ & _ & _ & _ & _ & _ & _ & Hpart' & Ht').
  cbv zeta in *. apply Ht, elem_of_app in Hfp as [Hfp|Hfp]; [by apply extra_not_fp in Hfp|].
  apply Ht', elem_of_app in Hfq as [Hfq|Hfq]; [by apply extra_not_fp in Hfq|]. apply elem_of_list_singleton in Hfq as ->.
  unfold pdf_fp in Hfp. unfold row_fps in Hfp.
  assert (∀ m', fp_ok (fp_of (s2l "nwpdf") 1 ns' m')) as Hok by (intros m'; apply fp_of_ok; [apply part_pdf|done]).
  destruct r as [r|r].
  - apply elem_of_list_singleton in Hfp. by apply legacy_not_versioned in Hfp.
  - apply elem_of_app in Hfp as [Hfp|Hfp]; [|apply elem_of_list_singleton in Hfp; by apply legacy_not_versioned in Hfp].
    destruct (nw_legacy o); [|by apply elem_of_nil in Hfp]. destruct Hleg as [?|Hne]; [done|].
    apply elem_of_list_singleton in Hfp. apply legacy_tag_inj in Hfp as [E1 _]; [|done|apply fp_of_ok; [apply part_nil|done]].
    destruct Hne. symmetry. exact E1.
Qed.
Lemma pdf_no_peer_balance E ho o doc ns ts t : pdf_import E ho o doc = Ok (ns, ts) → t ∈ ts → no_peer_balance t.
Proof.
  intros Him Ht own peer Ep. destruct (pdf_transaction _ _ _ _ _ _ _ Him Ht) as (? & ? & ? & b & _ & Hb).
  apply build_trn_shape in Hb as (_ & _ & c1 & c2 & -> & _). cbn in Ep. by injection Ep as _ <-.
Qed.
Theorem csv_then_pdf pd ho o records ns ts name rs E ho' o' doc ns' ts' ls skip gs w new ho1 ho2 :
  hash_order_ok ho → hash_order_ok ho' → hash_order_ok ho1 → hash_order_ok ho2 →
  parser_ok pd → fields_ok records → nw_csv_import pd ho o records = Ok (ns, ts) →
  statement_reads pd records name rs → contiguous (rec_date <$> rs) → ¬ statement_collides rs →
  env_ok E → (∀ t, t ∈ ts' → str_ok (t_description t)) → pdf_import E ho' o' doc = Ok (ns', ts') →
  statement_lines E doc ls → grouped ls skip gs → together (tl_date <$> (gs ≫= group_lines)) →
  ¬ pdf_collides ts' (sequence None 0 gs) →
  nw_legacy o = false ∨ ns ≠ ns' →
  w.*1 = ts → ts' ≡ₚ omap snd w ++ new → statements_agree w new →
  ∃ m1 m, merge ho1 merger_new (as_merged ts) = (m1, Ok []) ∧ merge ho2 m1 (as_merged ts') = (m, Ok []) ∧
    ∀ hb out, hash_order_ok hb → build hb m = Ok out →
      same_up_to_order (stable_sort (by_key tp_date) ((payment <$> w) ++ as_merged new)) out.
Proof.
  intros Hho Hho' Hho1 Hho2 Hpd Hf Him Hs Hc Hcol HE Hd Him' Hls Hg Htog Hcol' Hleg <- Hp Hag.
  apply (agree_merge w new ts' Hag Hp); [..|done|done].
  - intros t Ht. exact (c46_nw _ _ _ _ _ _ t Hho Him Ht).
  - intros t Ht. split; [|by eapply pdf_no_peer_balance]. destruct (pdf_sides _ _ _ _ _ _ t Hho' Him' Ht) as (own & peer & ? & ? & _).
    by exists own, peer.
  - intros p [Hx|Hx]%elem_of_app; [exact (import_mergeable _ _ _ _ _ _ p Hho Hpd Hf Him Hx)|exact (pdf_mergeable _ _ _ _ _ _ p Hho' Him' Hx)].
  - intros i j p q Hi Hj Hsh. destruct (decide (i = j)) as [|Hij]; [done|]. destruct Hcol. by eapply (c43 pd ho o records ns _ name rs i j p q).
  - intros i j p q Hi Hj Hsh. destruct (decide (i = j)) as [|Hij]; [done|]. destruct Hcol'. by eapply (c76 E ho' o' doc ns' ts' ls skip gs i j p q).
  - intros p q Hx Hq. exact (csv_pdf_fps _ _ _ _ _ _ _ _ _ _ _ _ _ _ p q Hho Hpd Hf Him Hs Hho' Him' Hleg Hx Hq).
Qed.
Lemma csv_no_peer_balance pd ho o records ns ts t : nw_csv_import pd ho o records = Ok (ns, ts) → t ∈ ts → no_peer_balance t.
Proof.
  intros (name & rs & _ & _ & _ & H)%import_row (k & Hk)%elem_of_list_lookup own peer Ep.
  destruct (H k t Hk) as (r & a & c1 & c2 & _ & _ & _ & _ & -> & _). cbn in Ep. by injection Ep as _ <-.
Qed.
(** The other way round. *)
Theorem pdf_then_csv pd ho o records ns ts name rs E ho' o' doc ns' ts' ls skip gs w new ho1 ho2 :
  hash_order_ok ho → hash_order_ok ho' → hash_order_ok ho1 → hash_order_ok ho2 →
  parser_ok pd → fields_ok records → nw_csv_import pd ho o records = Ok (ns, ts) →
  statement_reads pd records name rs → contiguous (rec_date <$> rs) → ¬ statement_collides rs →
  env_ok E → (∀ t, t ∈ ts' → str_ok (t_description t)) → pdf_import E ho' o' doc = Ok (ns', ts') →
  statement_lines E doc ls → grouped ls skip gs → together (tl_date <$> (gs ≫= group_lines)) →
  ¬ pdf_collides ts' (sequence None 0 gs) →
  nw_legacy o = false ∨ ns ≠ ns' →
  w.*1 = ts' → ts ≡ₚ omap snd w ++ new → statements_agree w new →
  ∃ m1 m, merge ho1 merger_new (as_merged ts') = (m1, Ok []) ∧ merge ho2 m1 (as_merged ts) = (m, Ok []) ∧
    ∀ hb out, hash_order_ok hb → build hb m = Ok out →
      same_up_to_order (stable_sort (by_key tp_date) ((payment <$> w) ++ as_merged new)) out.
Proof.
  intros Hho Hho' Hho1 Hho2 Hpd Hf Him Hs Hc Hcol HE Hd Him' Hls Hg Htog Hcol' Hleg <- Hp Hag.
  apply (agree_merge w new ts Hag Hp); [..|done|done].
  - intros t Ht. destruct (pdf_sides _ _ _ _ _ _ t Hho' Him' Ht) as (own & peer & ? & ? & _). by exists own, peer.
  - intros t Ht. split; [exact (c46_nw _ _ _ _ _ _ t Hho Him Ht)|by eapply csv_no_peer_balance].
  - intros p [Hx|Hx]%elem_of_app; [exact (pdf_mergeable _ _ _ _ _ _ p Hho' Him' Hx)|exact (import_mergeable _ _ _ _ _ _ p Hho Hpd Hf Him Hx)].
  - intros i j p q Hi Hj Hsh. destruct (decide (i = j)) as [|Hij]; [done|]. destruct Hcol'. by eapply (c76 E ho' o' doc ns' _ ls skip gs i j p q).
  - intros i j p q Hi Hj Hsh. destruct (decide (i = j)) as [|Hij]; [done|]. destruct Hcol. by eapply (c43 pd ho o records ns ts name rs i j p q).
  - intros q p Hq Hx (f & H1 & H2). apply (csv_pdf_fps _ _ _ _ _ _ _ _ _ _ _ _ _ _ p q Hho Hpd Hf Him Hs Hho' Him' Hleg Hx Hq). by exists f.
Qed.
(** What a payment that both list looks like. *)
Lemma payment_fps t t' p q b : tp_posts (transaction_postings_of t) !! b = Some p → tp_posts (transaction_postings_of t') !! b = Some q →
  ∃ r, tp_posts (payment (t, Some t')) !! b = Some r ∧ (∀ f, has_fp r f ↔ has_fp p f ∨ has_fp q f) ∧
    tp_trn (payment (t, Some t')) = tp_trn (transaction_postings_of t).
Proof.
  intros Hp Hq. unfold payment, joined. cbn [fst snd fmap option_fmap option_map tp_posts tp_trn].
  exists (merge_posting p q). split; [apply lookup_zip_with_Some; eauto|]. split; [intros f; apply merge_posting_fp|done].
Qed.

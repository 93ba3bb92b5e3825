(** When imported postings have a fingerprint in common (C125). *)
From Verif Require Import MergeClaims.
From Verif Require Import Base Types SpecBase CommentModel MergeModel Sha1 FingerprintModel NwCsvModel TzModel PaypalModel OcrModel PdfModel
  CommentClaims FingerprintClaims ImportClaims FingerprintProofs FingerprintLaws ImportProofs ImportRows ImportLaws ImportPaypal BaseProofs
  PdfClaims PdfTable PdfFold PdfLaws SameFpClaims.
Local Open Scope nat_scope.

(** ** Nationwide CSV *)
Lemma nw_post pd ho o records ns ts name rs k t n p :
  hash_order_ok ho → parser_ok pd → fields_ok records →
  nw_csv_import pd ho o records = Ok (ns, ts) → statement_reads pd records name rs →
  ts !! k = Some t → t_postings t !! n = Some p →
  ∃ s r a, let i := day_number (rec_date <$> rs) k in n = side_nat s ∧ rs !! k = Some r ∧ rec_ok r ∧
    self_amount_of (paid_in r) (paid_out r) = Ok a ∧ (Z.of_nat i ≤ I32_MAX)%Z ∧ fp_part ns ∧
    ∀ t, has_tag (posting_internal_of p) t ↔ t ∈ extra_tags s ++ row_fps (nw_legacy o) ns r a (Z.of_nat i) s.
Proof.
  intros Hho Hpd Hf Hi Hs Hk Hp.
  apply import_row in Hi as (name' & rs' & Hs' & Hns & Hlen & Hrow).
  destruct (statement_fun _ _ _ _ _ _ Hs Hs') as [<- <-]. clear Hs'.
  destruct (Hrow k t Hk) as (r & a & c1 & c2 & Hr & Hi & Ha & Hpart & -> & M1 & M2). clear Hrow.
  destruct (statement_ok pd records name rs Hpd Hf Hs r) as [Hok Hcl]; [by eapply elem_of_list_lookup_2|].
  cbn [t_postings] in Hp. destruct n as [|[|n]]; [..|by destruct n]; injection Hp as <-; [exists Self|exists Peer]; exists r, a; cbv zeta.
  - split_and!; [done..|]. intros t. unfold has_tag. cbn [posting_internal_of pi_comment p_comment]. by eapply made_exact.
  - split_and!; [done..|]. intros t. unfold has_tag. cbn [posting_internal_of pi_comment p_comment]. by eapply made_exact.
Qed.
Lemma adds_spec r a : self_amount_of (paid_in r) (paid_out r) = Ok a ↔ adds r a.
Proof.
  unfold self_amount_of, adds. destruct (paid_in r) as [x|], (paid_out r) as [[[n e m] c]|]; split.
  - done.
  - intros [[? ?]|(? & ? & ? & ? & ? & _)]; done.
  - intros [= ->]. by left.
  - intros [[[= ->] _]|(? & ? & ? & ? & ? & _)]; done.
  - intros [= <-]. right. by exists n, e, m, c.
  - intros [[? ?]|(? & ? & ? & ? & _ & [= <- <- <- <-] & ->)]; done.
  - done.
  - intros [[? ?]|(? & ? & ? & ? & _ & ? & _)]; done.
Qed.
Lemma adds_fun r a a' : adds r a → adds r a' → a = a'.
Proof. rewrite <- !adds_spec. congruence. Qed.
Lemma row_fps_same l l' ns r r' a a' i s : same_entry (l && l') r r' →
  self_amount_of (paid_in r) (paid_out r) = Ok a → self_amount_of (paid_in r') (paid_out r') = Ok a' →
  ∃ f, f ∈ row_fps l ns r a i s ∧ f ∈ row_fps l' ns r' a' i s.
Proof.
  intros [->|[Hl (x & y & b & -> & -> & E1 & E2 & E3 & B1 & B2)]] Ha Ha'.
  - rewrite Ha in Ha'. injection Ha' as <-. destruct r' as [x|x].
    + eexists. split; left.
    + eexists. split; apply elem_of_app; right; left.
  - apply andb_true_iff in Hl as [-> ->]. apply adds_spec in B1, B2.
    rewrite B1 in Ha. rewrite B2 in Ha'. injection Ha as <-. injection Ha' as <-.
    eexists. split; apply elem_of_app; left; [left|]. apply elem_of_list_singleton. unfold legacy_message. rewrite E1, E2, E3. done.
Qed.
Lemma row_fps_inv l l' ns ns' r r' a a' i i' s s' f :
  fp_part ns → fp_part ns' → rec_ok r → rec_ok r' →
  self_amount_of (paid_in r) (paid_out r) = Ok a → self_amount_of (paid_in r') (paid_out r') = Ok a' →
  (Z.of_nat i ≤ I32_MAX)%Z → (Z.of_nat i' ≤ I32_MAX)%Z →
  f ∈ row_fps l ns r a (Z.of_nat i) s → f ∈ row_fps l' ns' r' a' (Z.of_nat i') s' →
  (ns = ns' ∧ s = s' ∧ i = i' ∧ same_entry (l && l') r r') ∨ row_messages_collide r i r' i'.
Proof.
  intros Hn Hn' Hr Hr' Ha Ha' Hi Hi' Hf Hf'.
  assert (i32_ok (Z.of_nat i) ∧ i32_ok (Z.of_nat i')) as [Hz Hz'] by (unfold I32_MAX, i32_ok in *; lia).
  assert (∀ x y j j' u u', tag (fp_of (s2l "nwcsv5") 1 ns (five_message x j u)) ≠ tag (fp_of (s2l "nwcsv6") 1 ns' (six_message y j' u'))) as N56.
  { intros x y j j' u u' E. apply tag_inj in E; [|by apply fp_of_ok; [apply part_five|]|by apply fp_of_ok; [apply part_six|]].
    apply (f_equal fp_algorithm) in E. cbn [fp_algorithm fp_of] in E. revert E. by vm_compute. }
  assert (∀ x y j j' u u', tag (fp_of (s2l "nwcsv6") 1 ns (six_message x j u)) ≠ tag (fp_of (s2l "nwcsv5") 1 ns' (five_message y j' u'))) as N65.
  { intros x y j j' u u' E. apply tag_inj in E; [|by apply fp_of_ok; [apply part_six|]|by apply fp_of_ok; [apply part_five|]].
    apply (f_equal fp_algorithm) in E. cbn [fp_algorithm fp_of] in E. revert E. by vm_compute. }
  assert (∀ m g, legacy_tag (fp_of [] 0 ns m) ≠ tag g) as L1.
  { intros m g. apply legacy_not_versioned, fp_of_ok; [apply part_nil|done]. }
  assert (∀ m g, legacy_tag (fp_of [] 0 ns' m) ≠ tag g) as L2.
  { intros m g. apply legacy_not_versioned, fp_of_ok; [apply part_nil|done]. }
  destruct r as [r|r], r' as [r'|r']; cbn [rec_ok] in *; unfold row_fps in Hf, Hf'.
  - apply elem_of_list_singleton in Hf as ->. apply elem_of_list_singleton in Hf'.
    apply fp_of_inj in Hf' as [En E]; [|apply part_five|done|done].
    destruct (decide (five_message r (Z.of_nat i) s = five_message r' (Z.of_nat i') s')) as [Em|Em].
    + apply five_message_inj in Em as (->&Ei&->); [|done..]. left. split_and!; [done|done|lia|by left].
    + right. eexists _, _. split_and!; [by exists s|by exists s'|]. by split.
  - exfalso. apply elem_of_list_singleton in Hf as ->. apply elem_of_app in Hf' as [Hf'|Hf'].
    + destruct l'; [|by apply elem_of_nil in Hf']. apply elem_of_list_singleton in Hf'. by eapply L2.
    + apply elem_of_list_singleton in Hf'. by eapply N56.
  - exfalso. apply elem_of_list_singleton in Hf' as ->. apply elem_of_app in Hf as [Hf|Hf].
    + destruct l; [|by apply elem_of_nil in Hf]. apply elem_of_list_singleton in Hf. by eapply L1.
    + apply elem_of_list_singleton in Hf. by eapply N65.
  - apply elem_of_app in Hf as [Hf|Hf], Hf' as [Hf'|Hf'].
    + destruct l; [|by apply elem_of_nil in Hf]. destruct l'; [|by apply elem_of_nil in Hf'].
      apply elem_of_list_singleton in Hf as ->. apply elem_of_list_singleton in Hf'.
      set (h := self_and_peer_account_amount a ASSETS_UNKNOWN) in *.
      set (h' := self_and_peer_account_amount a' ASSETS_UNKNOWN) in *.
      apply fp_of_legacy_inj in Hf' as [En E]; [|done|done].
      assert (amount_ok a) as Hao by (eapply (rec_amount_ok (Six r)); done).
      assert (amount_ok a') as Hao' by (eapply (rec_amount_ok (Six r')); done).
      destruct (decide (legacy_message r (Z.of_nat i) (pick s h) = legacy_message r' (Z.of_nat i') (pick s' h'))) as [Em|Em].
      * apply legacy_message_inj in Em as (Ety&Ed&Eb&Ei&Eh);
          [|done|done|done|done|by apply halves_ok|by apply halves_ok|by apply halves_ok|by apply halves_ok].
        assert (s = s') as <-.
        { apply (f_equal aa_account) in Eh. destruct s, s'; [done|..|done]; cbn in Eh; by destruct (d_neg _). }
        left. split_and!; [done|done|lia|]. right. split; [done|]. exists r, r', a. split_and!; [done..|by apply adds_spec|].
        assert (a = a') as ->; [|by apply adds_spec].
        apply (f_equal aa_amount) in Eh. destruct s; cbn in Eh; [done|].
        destruct a as [[n1 e1 m1] c1], a' as [[n2 e2 m2] c2]. cbn in Eh. injection Eh as E1 -> -> ->. f_equal. f_equal. by destruct n1, n2.
      * right. eexists _, _. split_and!; [right; exists s, a; by split|right; exists s', a'; by split|by split].
    + exfalso. destruct l; [|by apply elem_of_nil in Hf]. apply elem_of_list_singleton in Hf as ->. apply elem_of_list_singleton in Hf'. by eapply L1.
    + exfalso. destruct l'; [|by apply elem_of_nil in Hf']. apply elem_of_list_singleton in Hf' as ->. apply elem_of_list_singleton in Hf. by eapply L2.
    + apply elem_of_list_singleton in Hf as ->. apply elem_of_list_singleton in Hf'.
      apply fp_of_inj in Hf' as [En E]; [|apply part_six|done|done].
      destruct (decide (six_message r (Z.of_nat i) s = six_message r' (Z.of_nat i') s')) as [Em|Em].
      * apply six_message_inj in Em as (->&Ei&->); [|done..]. left. split_and!; [done|done|lia|by left].
      * right. eexists _, _. split_and!; [left; by exists s|left; by exists s'|]. by split.
Qed.
Lemma row_fps_fp l ns r a i s f : fp_part ns → f ∈ row_fps l ns r a i s → fp_tag f.
Proof. intros Hn Hf. by eapply good_is_fp, row_fps_good. Qed.

Lemma nw_share pd pd' ho ho' o o' records records' ns ns' ts ts' name name' rs rs' k k' t t' n n' p q r r' :
  hash_order_ok ho → hash_order_ok ho' → parser_ok pd → parser_ok pd' → fields_ok records → fields_ok records' →
  nw_csv_import pd ho o records = Ok (ns, ts) → nw_csv_import pd' ho' o' records' = Ok (ns', ts') →
  statement_reads pd records name rs → statement_reads pd' records' name' rs' →
  ts !! k = Some t → ts' !! k' = Some t' → t_postings t !! n = Some p → t_postings t' !! n' = Some q →
  rs !! k = Some r → rs' !! k' = Some r' →
  let i := day_number (rec_date <$> rs) k in let i' := day_number (rec_date <$> rs') k' in
  let same := ns = ns' ∧ n = n' ∧ i = i' ∧ same_entry (nw_legacy o && nw_legacy o') r r' in
  (same → share_fp (posting_internal_of p) (posting_internal_of q)) ∧
  (share_fp (posting_internal_of p) (posting_internal_of q) → same ∨ row_messages_collide r i r' i').
Proof.
  intros Hho Hho' Hpd Hpd' Hf Hf' Hi Hi' Hs Hs' Hk Hk' Hp Hq Hr Hr'. cbv zeta.
  destruct (nw_post _ _ _ _ _ _ _ _ _ _ _ _ Hho Hpd Hf Hi Hs Hk Hp) as (s & r1 & a & -> & Hr1 & Hok & Ha & Hm & Hpart & Ht).
  destruct (nw_post _ _ _ _ _ _ _ _ _ _ _ _ Hho' Hpd' Hf' Hi' Hs' Hk' Hq) as (s' & r1' & a' & -> & Hr1' & Hok' & Ha' & Hm' & Hpart' & Ht').
  cbv zeta in *. rewrite Hr in Hr1. injection Hr1 as <-. rewrite Hr' in Hr1'. injection Hr1' as <-. split.
  - intros (<- & En & Ei & Hsame). assert (s' = s) as -> by (destruct s, s'; done). rewrite <- Ei in *.
    destruct (row_fps_same _ _ ns r r' a a' (Z.of_nat (day_number (rec_date <$> rs) k)) s Hsame Ha Ha') as (f & F & F').
    exists f. split; (split; [by eapply row_fps_fp|]); [apply Ht|apply Ht']; apply elem_of_app; by right.
  - intros (f & [Hff Hfp] & [_ Hfq]).
    apply Ht, elem_of_app in Hfp as [Hfp|Hfp]; [by apply extra_not_fp in Hfp|].
    apply Ht', elem_of_app in Hfq as [Hfq|Hfq]; [by apply extra_not_fp in Hfq|].
    destruct (row_fps_inv _ _ _ _ _ _ _ _ _ _ _ _ _ Hpart Hpart' Hok Hok' Ha Ha' Hm Hm' Hfp Hfq) as [(-> & -> & E & H)|H]; [left|by right].
    done.
Qed.

(** ** PayPal CSV *)
Lemma pp_fps_cases l ns v i s f : f ∈ pp_fps l ns v i s →
  (s = Self ∧ f = tag (fp_of (s2l "ppcsv") 1 ns (pp_message v i s))) ∨ (l = true ∧ f = legacy_tag (fp_of (s2l "ppcsv") 1 ns (pp_message v i s))).
Proof.
  unfold pp_fps. rewrite elem_of_app. intros [H|H].
  - destruct s; [|by apply elem_of_nil in H]. apply elem_of_list_singleton in H. by left.
  - destruct l; [|by apply elem_of_nil in H]. apply elem_of_list_singleton in H. by right.
Qed.
Lemma pp_fps_inv l l' ns ns' v v' i i' s s' f : fp_part ns → fp_part ns' → pp_row_ok v → pp_row_ok v' → (N.of_nat i < 2 ^ 64)%N → (N.of_nat i' < 2 ^ 64)%N →
  f ∈ pp_fps l ns v i s → f ∈ pp_fps l' ns' v' i' s' →
  (ns = ns' ∧ i = i' ∧ s = s' ∧ pp_same_hashed v v' ∧ (s = Self ∨ l && l' = true)) ∨ sha1_collision (pp_message v i s) (pp_message v' i' s').
Proof.
  intros Hn Hn' Hv Hv' Hi Hi' Hf Hf'.
  assert (∀ n v i s, fp_part n → fp_ok (fp_of (s2l "ppcsv") 1 n (pp_message v i s))) as Hok by (intros; apply fp_of_ok; [apply part_pp|done]).
  assert (ns = ns' ∧ sha1 (pp_message v i s) = sha1 (pp_message v' i' s') ∧ ((s = Self ∧ s' = Self) ∨ l && l' = true)) as (En & E & Hc).
  { apply pp_fps_cases in Hf as [[Es ->]|[El ->]]; apply pp_fps_cases in Hf' as [[Es' E]|[El' E]].
    - apply fp_of_inj in E as [-> E]; [|apply part_pp|done|done]. by split_and!; [..|left].
    - exfalso. symmetry in E. by eapply legacy_not_versioned; [|exact E]; apply Hok.
    - exfalso. by eapply legacy_not_versioned; [|exact E]; apply Hok.
    - apply legacy_tag_inj in E as [En E]; [|by apply Hok|by apply Hok]. cbn [fp_value fp_namespace fp_of] in En, E. split_and!; [done|by apply into_base64_inj|].
      right. by rewrite El, El'. }
  destruct (decide (pp_message v i s = pp_message v' i' s')) as [Em|Em]; [|by right].
  left. apply pp_message_inj in Em as (H1 & H2 & H3); [|done..]. split_and!; [done..|]. destruct Hc as [[? _]|?]; [by left|by right].
Qed.
Lemma pp_fps_same l l' ns v v' i s : pp_same_hashed v v' → s = Self ∨ l && l' = true → ∃ f, f ∈ pp_fps l ns v i s ∧ f ∈ pp_fps l' ns v' i s.
Proof.
  intros H Hc. rewrite (same_fps_row l ns v v' i s H). unfold pp_fps. destruct Hc as [->|[-> ->]%andb_true_iff].
  - eexists. split; apply elem_of_app; left; left.
  - eexists. split; apply elem_of_app; right; left.
Qed.
Lemma place_side i s : place i s = 2 * i + side_nat s.
Proof. destruct s; cbn; lia. Qed.
Lemma pp_share ho ho' l l' tz tz' db db' ns ns' rows rows' ts ts' gs gs' k k' ti ti' g g' t t' i i' s s' v v' p q :
  hash_order_ok ho → hash_order_ok ho' → rows_ok rows → rows_ok rows' →
  pp_import ho l tz db ns rows = Ok ts → pp_import ho' l' tz' db' ns' rows' = Ok ts' → runs db rows gs → runs db' rows' gs' →
  gs !! k = Some (ti, g) → gs' !! k' = Some (ti', g') → g !! i = Some v → g' !! i' = Some v' →
  ts !! k = Some t → ts' !! k' = Some t' → t_postings t !! place i s = Some p → t_postings t' !! place i' s' = Some q →
  let same := ns = ns' ∧ i = i' ∧ s = s' ∧ pp_same_hashed v v' ∧ (s = Self ∨ l && l' = true) in
  (same → share_fp (posting_internal_of p) (posting_internal_of q)) ∧
  (share_fp (posting_internal_of p) (posting_internal_of q) → same ∨ sha1_collision (pp_message v i s) (pp_message v' i' s')).
Proof.
  intros Hho Hho' Hok Hok' Hi Hi' Hr Hr' Hg Hg' Hv Hv' Hk Hk' Hp Hq. cbv zeta.
  assert (∀ i s j u, place i s = 2 * j + side_nat u → j = i ∧ u = s) as Hpl.
  { intros i0 s0 j u. rewrite place_side. destruct s0, u; cbn; intros ?; split; (lia || done). }
  destruct (pp_post_fps _ _ _ _ _ _ _ _ _ _ _ _ Hho Hok Hi Hr Hk Hp) as (ti1 & g1 & j & u & w & Hg1 & [-> ->]%Hpl & Hw & Hwin & Hns & _ & F).
  destruct (pp_post_fps _ _ _ _ _ _ _ _ _ _ _ _ Hho' Hok' Hi' Hr' Hk' Hq) as (ti2 & g2 & j' & u' & w' & Hg2 & [-> ->]%Hpl & Hw' & Hwin' & Hns' & _ & F').
  rewrite Hg in Hg1. injection Hg1 as <- <-. rewrite Hg' in Hg2. injection Hg2 as <- <-.
  rewrite Hv in Hw. injection Hw as <-. rewrite Hv' in Hw'. injection Hw' as <-.
  destruct (pp_post _ _ _ _ _ _ _ _ _ _ _ _ Hi Hr Hk Hp) as (_ & ? & ? & i1 & u & ? & ? & _ & [-> ->]%Hpl & _ & _ & Hlt & _).
  destruct (pp_post _ _ _ _ _ _ _ _ _ _ _ _ Hi' Hr' Hk' Hq) as (_ & ? & ? & i2 & u' & ? & ? & _ & [-> ->]%Hpl & _ & _ & Hlt' & _).
  destruct Hok as [Hlen Hrows], Hok' as [Hlen' Hrows']. destruct (Hrows v Hwin) as (Hvok & _). destruct (Hrows' v' Hwin') as (Hvok' & _). split.
  - intros (<- & <- & <- & Hs & Hc). destruct (pp_fps_same l l' ns v v' i s Hs Hc) as (f & H1 & H2). exists f. split; [by apply F|by apply F'].
  - intros (f & H1%F & H2%F'). apply (pp_fps_inv l l' ns ns' v v' i i' s s' f); [done..|lia|lia|done|done].
Qed.

(** ** Nationwide PDF *)
Lemma pdf_at E ho o doc ns ts ls skip gs k t m n p : hash_order_ok ho → env_ok E → pdf_import E ho o doc = Ok (ns, ts) →
  statement_lines E doc ls → grouped ls skip gs → ts !! k = Some t → sequence None 0 gs !! k = Some m → str_ok (t_description t) →
  t_postings t !! n = Some p →
  fp_part ns ∧ ∃ s a, posting_is p (p_account p) a ∧ date_ok (t_date t) ∧ i32_ok (Z.of_nat m) ∧ str_ok (p_account p) ∧ amount_ok a ∧
    let h := AccountAmount (p_account p) a in
    ∀ f, has_tag (posting_internal_of p) f ↔ f ∈ extra_tags s ++ [legacy_tag (fp_of (s2l "nwpdf") 1 ns (half_message (t_date t) (Z.of_nat m) (t_description t) h))].
Proof.
  intros Hho HE (name & ls' & skip' & gs' & _ & _ & Hls' & Hg' & Hgv)%import_lines Hls Hg Hk Hm Hd Hp.
  assert (ls' = ls) as -> by (by eapply statement_fun'). destruct (grouping_fun _ _ _ _ _ Hg Hg') as [-> ->].
  apply gives_lookup in Hgv as [_ Hgk]. destruct (Hgk k t Hk) as (g & m' & b & H1 & H2 & H3 & H4 & H5).
  rewrite Hm in H2. injection H2 as <-.
  pose proof (build_trn_shape _ _ _ _ H4) as (Hn & _ & c1 & c2 & Et & M1 & M2).
  apply builds_reads in H3 as (es & bs & [R1 R2 _ _] & Hc & _ & _ & _).
  pose proof (group_amount_ok _ _ _ HE R2) as Ha.
  assert (date_ok (tb_date b)) as Hdate.
  { apply line_date_date. eapply statement_date; [exact Hls| |exact R1]. eapply group_line; [done|]. by eapply elem_of_list_lookup_2. }
  assert (i32_ok (Z.of_nat m)) as Hi by (unfold i32_ok, I32_MAX in *; lia).
  split; [done|]. rewrite Et in Hp, Hd |- *. cbn [t_postings t_date t_description] in *.
  destruct n as [|[|n]]; [..|by destruct n]; injection Hp as <-; [exists Self|exists Peer]; cbn [p_account posting_internal_of pi_comment p_comment].
  - exists (own_amount b). split; [done|]. split; [done|]. split; [done|]. split; [exact (proj1 (halves_ok _ Ha Self))|]. split; [done|].
    cbv zeta. rewrite <- Hc. intros f. exact (made_exact True _ _ ho f Hho I M1).
  - exists (negate_amount (own_amount b)). split; [done|]. split; [done|]. split; [done|]. split; [exact (proj1 (halves_ok _ Ha Peer))|].
    split; [exact (proj2 (halves_ok _ Ha Peer))|]. cbv zeta. rewrite <- Hc. intros f. exact (made_exact True _ _ ho f Hho I M2).
Qed.
Lemma pdf_share E E' ho ho' o o' doc doc' ns ns' ts ts' ls ls' skip skip' gs gs' k k' t t' m m' n n' p q :
  hash_order_ok ho → hash_order_ok ho' → env_ok E → env_ok E' →
  pdf_import E ho o doc = Ok (ns, ts) → pdf_import E' ho' o' doc' = Ok (ns', ts') →
  statement_lines E doc ls → statement_lines E' doc' ls' → grouped ls skip gs → grouped ls' skip' gs' →
  ts !! k = Some t → ts' !! k' = Some t' → sequence None 0 gs !! k = Some m → sequence None 0 gs' !! k' = Some m' →
  str_ok (t_description t) → str_ok (t_description t') →
  t_postings t !! n = Some p → t_postings t' !! n' = Some q →
  let same := ns = ns' ∧ t_date t = t_date t' ∧ m = m' ∧ t_description t = t_description t' ∧ p_account p = p_account q ∧ p_amount p = p_amount q in
  (same → share_fp (posting_internal_of p) (posting_internal_of q)) ∧
  (share_fp (posting_internal_of p) (posting_internal_of q) → same ∨
     ∃ a a', posting_is p (p_account p) a ∧ posting_is q (p_account q) a' ∧
       sha1_collision (pdf_message t m (p_account p) a) (pdf_message t' m' (p_account q) a')).
Proof.
  intros Hho Hho' HE HE' Hi Hi' Hls Hls' Hg Hg' Hk Hk' Hm Hm' Hd Hd' Hp Hq. cbv zeta.
  destruct (pdf_at _ _ _ _ _ _ _ _ _ _ _ _ _ _ Hho HE Hi Hls Hg Hk Hm Hd Hp) as (Hn & s & a & Pa & D & M & A1 & A2 & T). cbv zeta in T.
  destruct (pdf_at _ _ _ _ _ _ _ _ _ _ _ _ _ _ Hho' HE' Hi' Hls' Hg' Hk' Hm' Hd' Hq) as (Hn' & s' & a' & Pa' & D' & M' & A1' & A2' & T'). cbv zeta in T'.
  split.
  - intros (<- & E1 & <- & E2 & E3 & E4). assert (a' = a) as ->.
    { destruct Pa as [_ Pa], Pa' as [_ Pa']. rewrite Pa, Pa' in E4. by injection E4. }
    eexists. split; (split; [eapply good_is_fp, good_legacy_tag, fp_of_ok; [apply part_pdf|exact Hn]|]).
    + apply T, elem_of_app. right. left.
    + apply T', elem_of_app. right. rewrite E1, E2, E3. left.
  - intros (f & [Hff H1] & [_ H2]).
    apply T, elem_of_app in H1 as [H1|H1]; [by apply extra_not_fp in H1|]. apply elem_of_list_singleton in H1 as ->.
    apply T', elem_of_app in H2 as [H2|H2]; [by apply extra_not_fp in H2|]. apply elem_of_list_singleton in H2.
    apply pdf_legacy_inj in H2 as [En E0]; [|done|done].
    match type of E0 with sha1 ?x = sha1 ?y => destruct (decide (x = y)) as [Em|Em] end.
    + left. apply half_message_inj in Em as (E1 & E2 & E3 & [= E4 ->]); [|done..].
      split_and!; [done|done|lia|done|done|]. destruct Pa as [_ ->], Pa' as [_ ->]. done.
    + right. exists a, a'. by split_and!.
Qed.

(** Laws of the Nationwide CSV importer (C43, C45, C46, C48, C49, C52). *)
From Verif Require Import MergeClaims.
From Verif Require Import Base Types SpecBase BaseProofs StrProofs CommentModel MergeModel Sha1 FingerprintModel NwCsvModel
  CommentClaims FingerprintClaims FingerprintProofs FingerprintLaws ImportClaims ImportProofs ImportRows.
From Verif Require Import MergeProofs MergeLemmas MergeLaws4.
From Coq Require Import Lia QArith.
Local Open Scope nat_scope.

(** ** Rows are well formed *)
Lemma str_ok_check (s : str) : forallb (λ c, (c <? 1114112)%N) s = true → (utf8_len s <? 2 ^ 64)%N = true → str_ok s.
Proof.
  intros H1 H2%N.ltb_lt. split; [|done]. intros c Hc. rewrite forallb_forall in H1.
  apply elem_of_list_In, H1, N.ltb_lt in Hc. done.
Qed.
Lemma GBP_ok : str_ok (cm_name GBP).
Proof. apply str_ok_check; reflexivity. Qed.
Lemma gbp_value_shape s a : gbp_value s = Ok a → ∃ n m, a = Amount (Dec n 2 m) GBP ∧ (m ≤ I64_MAX)%N.
Proof.
  unfold gbp_value. destruct (gbp_rx s) as [[[sg p] q]|]; [|done].
  intros (x & Hx & H)%rbind_ok. apply rbind_ok in H as (y & Hy & H).
  destruct (N.leb_spec (x * 100 + y) I64_MAX); [|done]. apply Ok_inj in H as <-. by eexists _, _.
Qed.
Lemma gbp_value_ok s a : gbp_value s = Ok a → amount_ok a.
Proof.
  intros (n & m & -> & Hm)%gbp_value_shape. split; [|apply GBP_ok]. split; cbn; [lia|].
  eapply N.le_lt_trans; [exact Hm|]. reflexivity.
Qed.
Lemma de_opt_gbp_ok s a : de_opt_gbp s = Ok a → opt_ok amount_ok a.
Proof.
  intros H x ->. unfold de_opt_gbp in H. destruct s; [done|]. destruct (gbp_value _) eqn:E; [|done|done].
  cbn in H. injection H as <-. by eapply gbp_value_ok.
Qed.
Lemma de_date_ok pd s d : de_date pd s = Ok d ↔ pd s = Some d.
Proof. unfold de_date. destruct (pd s); naive_solver. Qed.
Definition rec_ok (r : nw_record) : Prop := match r with Five r => five_ok r | Six r => six_ok r end.
Lemma read_row_ok pd l row r : parser_ok pd → (∀ f, f ∈ row → str_ok f) → read_row pd l row r → rec_ok r.
Proof.
  intros Hpd Hf. destruct l, r as [x|x]; cbn [read_row]; try done.
  - intros (d & po & pi & rest & -> & Hd & Hpo%de_opt_gbp_reads & Hpi%de_opt_gbp_reads). unfold rec_ok, five_ok. split_and!.
    + by eapply Hpd.
    + apply Hf. right. left.
    + apply Hf. right. right. left.
    + by eapply de_opt_gbp_ok.
    + by eapply de_opt_gbp_ok.
  - intros (d & po & pi & b & rest & -> & Hd & Hpo%de_opt_gbp_reads & Hpi%de_opt_gbp_reads & Hb). unfold rec_ok, six_ok. split_and!.
    + by eapply Hpd.
    + apply Hf. right. left.
    + apply Hf. right. right. left.
    + by eapply de_opt_gbp_ok.
    + by eapply de_opt_gbp_ok.
    + by eapply gbp_value_ok.
Qed.
Lemma read_row_clean pd l row r name : (∀ f, f ∈ row → newline ∉ f) → newline ∉ name → read_row pd l row r → row_clean name r.
Proof.
  intros Hf Hn. destruct l, r as [x|x]; cbn [read_row]; try done.
  - intros (d & po & pi & rest & -> & _). split; [done|]. split; apply Hf.
    + right. left.
    + right. right. left.
  - intros (d & po & pi & b & rest & -> & _). split; [done|]. cbn. apply Hf. right. left.
Qed.
Lemma statement_ok pd records name rs : parser_ok pd → fields_ok records → statement_reads pd records name rs →
  ∀ r, r ∈ rs → rec_ok r ∧ row_clean name r.
Proof.
  intros Hpd Hf (n & b & a & l & rows & -> & Hrs) r (k & Hk)%elem_of_list_lookup.
  destruct (Forall2_lookup_r _ _ _ _ _ Hrs Hk) as (row & Hrow & Hr).
  assert (row ∈ (s2l "Account Name:" :: name :: n) :: b :: a :: header_of l :: rows) as Hin.
  { do 4 right. by eapply elem_of_list_lookup_2. }
  split.
  - eapply read_row_ok; [done| |exact Hr]. intros f Hff. by apply (Hf row f).
  - eapply read_row_clean; [| |exact Hr].
    + intros f Hff. by apply (Hf row f).
    + apply (Hf (s2l "Account Name:" :: name :: n)); [left|]. right. left.
Qed.

(** ** One row *)
Lemma self_amount_ok i o a : opt_ok amount_ok i → opt_ok amount_ok o → self_amount_of i o = Ok a → amount_ok a.
Proof.
  intros Hi Ho. destruct i as [x|], o as [y|]; cbn; try done; intros [= <-].
  - by apply Hi.
  - destruct (Ho y eq_refl) as [H1 H2]. split; [|done]. by destruct y as [[? ? ?] ?].
Qed.
Lemma rec_amount_ok r a : rec_ok r → self_amount_of (paid_in r) (paid_out r) = Ok a → amount_ok a.
Proof.
  destruct r; intros H; cbn in *.
  - destruct H as (?&?&?&?&?). by apply self_amount_ok.
  - destruct H as (?&?&?&?&?&?). by apply self_amount_ok.
Qed.
Lemma acct_ok : str_ok ASSETS_UNKNOWN ∧ str_ok EXPENSES_UNKNOWN ∧ str_ok INCOME_UNKNOWN.
Proof.
  split_and!; apply str_ok_check; reflexivity.
Qed.
Lemma halves_ok a : amount_ok a → ∀ s, str_ok (aa_account (pick s (self_and_peer_account_amount a ASSETS_UNKNOWN))) ∧
  amount_ok (aa_amount (pick s (self_and_peer_account_amount a ASSETS_UNKNOWN))).
Proof.
  intros [H1 H2] s. destruct acct_ok as (A1 & A2 & A3). destruct s; cbn.
  - done.
  - split; [by destruct (d_neg _)|]. split; [|done]. by destruct a as [[? ? ?] ?].
Qed.
Lemma row_fps_inj legacy ns r r' a a' i i' s s' f :
  fp_part ns → rec_ok r → rec_ok r' →
  self_amount_of (paid_in r) (paid_out r) = Ok a → self_amount_of (paid_in r') (paid_out r') = Ok a' →
  (Z.of_nat i ≤ I32_MAX)%Z → (Z.of_nat i' ≤ I32_MAX)%Z →
  (match r, r' with Five _, Five _ | Six _, Six _ => True | _, _ => False end) →
  f ∈ row_fps legacy ns r a (Z.of_nat i) s → f ∈ row_fps legacy ns r' a' (Z.of_nat i') s' →
  (rec_date r = rec_date r' ∧ i = i' ∧ s = s') ∨
  ∃ m m', row_message r i m ∧ row_message r' i' m' ∧ sha1_collision m m'.
Proof.
  intros Hn Hr Hr' Ha Ha' Hi Hi' Hk Hf Hf'.
  assert (i32_ok (Z.of_nat i) ∧ i32_ok (Z.of_nat i')) as [Hz Hz'] by (unfold I32_MAX, i32_ok in *; lia).
  destruct r as [r|r], r' as [r'|r']; try done; cbn [rec_ok] in *.
  - unfold row_fps in *. apply elem_of_list_singleton in Hf as ->. apply elem_of_list_singleton in Hf'.
    apply fp_of_inj in Hf' as [_ E]; [|apply part_five|done|done].
    destruct (decide (five_message r (Z.of_nat i) s = five_message r' (Z.of_nat i') s')) as [Em|Em].
    + apply five_message_inj in Em as (->&Ei&->); [|done..]. left. split_and!; [done|lia|done].
    + right. eexists _, _. split_and!; [by exists s|by exists s'|]. by split.
  - unfold row_fps in *. apply elem_of_app in Hf as [Hf|Hf], Hf' as [Hf'|Hf'];
      try (destruct legacy; [|by apply elem_of_nil in Hf || by apply elem_of_nil in Hf']).
    + apply elem_of_list_singleton in Hf as ->. apply elem_of_list_singleton in Hf'.
      set (h := self_and_peer_account_amount a ASSETS_UNKNOWN) in *.
      set (h' := self_and_peer_account_amount a' ASSETS_UNKNOWN) in *.
      apply fp_of_legacy_inj in Hf' as [_ E]; [|done|done].
      assert (amount_ok a) as Hao by (eapply (rec_amount_ok (Six r)); done).
      assert (amount_ok a') as Hao' by (eapply (rec_amount_ok (Six r')); done).
      destruct (decide (legacy_message r (Z.of_nat i) (pick s h) = legacy_message r' (Z.of_nat i') (pick s' h'))) as [Em|Em].
      * apply legacy_message_inj in Em as (?&?&?&?&Eh);
          [|done|done|done|done|by apply halves_ok|by apply halves_ok|by apply halves_ok|by apply halves_ok].
        left. cbn [rec_date]. split_and!; [done|lia|].
        apply (f_equal aa_account) in Eh. destruct s, s'; [done|..|done]; cbn in Eh; by destruct (d_neg _).
      * right. eexists _, _. split_and!; [right; exists s, a; by split|right; exists s', a'; by split|by split].
    + exfalso. apply elem_of_list_singleton in Hf as ->. apply elem_of_list_singleton in Hf'.
      eapply legacy_not_versioned; [|exact Hf']. apply fp_of_ok; [apply part_nil|done].
    + exfalso. apply elem_of_list_singleton in Hf as ->. apply elem_of_list_singleton in Hf'.
      eapply legacy_not_versioned; [|symmetry; exact Hf']. apply fp_of_ok; [apply part_nil|done].
    + apply elem_of_list_singleton in Hf as ->. apply elem_of_list_singleton in Hf'.
      apply fp_of_inj in Hf' as [_ E]; [|apply part_six|done|done].
      destruct (decide (six_message r (Z.of_nat i) s = six_message r' (Z.of_nat i') s')) as [Em|Em].
      * apply six_message_inj in Em as (->&Ei&->); [|done..]. left. split_and!; [done|lia|done].
      * right. eexists _, _. split_and!; [left; by exists s|left; by exists s'|]. by split.
Qed.

(** ** Whole imports *)
Definition side_nat (s : side) : nat := match s with Self => 0 | Peer => 1 end.
Lemma all_posts_cons t ts : all_posts (as_merged (t :: ts)) = (posting_internal_of <$> t_postings t) ++ all_posts (as_merged ts).
Proof. done. Qed.
Lemma all_posts_lookup ts n p : (∀ t, t ∈ ts → ∃ p1 p2, t_postings t = [p1; p2]) →
  all_posts (as_merged ts) !! n = Some p →
  ∃ k s t p1 p2, n = 2 * k + side_nat s ∧ ts !! k = Some t ∧ t_postings t = [p1; p2] ∧ p = posting_internal_of (pick s (p1, p2)).
Proof.
  revert n. induction ts as [|t ts IH]; intros n H Hn; [done|].
  rewrite all_posts_cons in Hn. destruct (H t) as (p1 & p2 & E); [left|]. rewrite E in Hn.
  destruct n as [|[|n]].
  - exists 0, Self, t, p1, p2. cbn in Hn. injection Hn as <-. done.
  - exists 0, Peer, t, p1, p2. cbn in Hn. injection Hn as <-. done.
  - destruct (IH n) as (k & s & t' & q1 & q2 & -> & H1 & H2 & ->).
    + intros x Hx. apply H. by right.
    + done.
    + exists (S k), s, t', q1, q2. split_and!; [lia|done|done|done].
Qed.
Lemma statement_kind pd records name rs r r' : statement_reads pd records name rs → r ∈ rs → r' ∈ rs →
  match r, r' with Five _, Five _ | Six _, Six _ => True | _, _ => False end.
Proof.
  intros (n & b & a & l & rows & -> & Hrs) (k & Hk)%elem_of_list_lookup (k' & Hk')%elem_of_list_lookup.
  destruct (Forall2_lookup_r _ _ _ _ _ Hrs Hk) as (row & _ & Hr).
  destruct (Forall2_lookup_r _ _ _ _ _ Hrs Hk') as (row' & _ & Hr').
  by destruct l, r, r'.
Qed.

(** Everything about transaction number [k] of an import. *)
Lemma import_row pd ho o records ns ts : nw_csv_import pd ho o records = Ok (ns, ts) →
  ∃ name rs, statement_reads pd records name rs ∧ make_namespace (nw_fp_ns o) name = Ok ns ∧ length ts = length rs ∧
  ∀ k t, ts !! k = Some t → ∃ r a c1 c2, let i := day_number (rec_date <$> rs) k in
    rs !! k = Some r ∧ (Z.of_nat i ≤ I32_MAX)%Z ∧
    self_amount_of (paid_in r) (paid_out r) = Ok a ∧ fp_part ns ∧
    t = Transaction None (rec_date r) None None None (rec_description r)
      [Posting ASSETS_UNKNOWN Real (Some (PostingAmount a None None)) (row_bal r) None (into_opt_comment ho c1);
       Posting (peer_account a) Real (Some (PostingAmount (negate_amount a) None None)) None None (into_opt_comment ho c2)] ∧
    made (row_clean name r) c1 (extra_tags Self ++ row_fps (nw_legacy o) ns r a (Z.of_nat i) Self) ∧
    made (row_clean name r) c2 (extra_tags Peer ++ row_fps (nw_legacy o) ns r a (Z.of_nat i) Peer).
Proof.
  intros (name & rs & Hs & Hns & Hg)%import_reads. exists name, rs.
  pose proof (rows_give_length _ _ _ _ _ _ _ Hg) as Hl. split_and!; [done..|].
  intros k t Hk. destruct (rs !! k) as [r|] eqn:Hr.
  2:{ apply lookup_ge_None in Hr. apply lookup_lt_Some in Hk. lia. }
  destruct (rows_give_day _ _ _ _ _ _ _ _ _ Hg Hr Hk) as (p1 & p2 & Hp & Hi & ->).
  apply row_postings_spec in Hp as (a & c1 & c2 & Ha & Hn & _ & -> & -> & M1 & M2).
  exists r, a, c1, c2. cbv zeta. split_and!; done.
Qed.
Lemma import_two pd ho o records ns ts t : nw_csv_import pd ho o records = Ok (ns, ts) → t ∈ ts →
  ∃ p1 p2, t_postings t = [p1; p2].
Proof.
  intros (name & rs & _ & _ & _ & H)%import_row (k & Hk)%elem_of_list_lookup.
  destruct (H k t Hk) as (r & a & c1 & c2 & _ & _ & _ & _ & -> & _). cbn. eauto.
Qed.

Lemma extra_not_fp s f : fp_tag f → f ∉ extra_tags s.
Proof.
  intros (x & ->). unfold extra_tags. rewrite !elem_of_cons. intros [E|[E|E%elem_of_nil]]; [|done|done]. by destruct s.
Qed.
Lemma good_is_fp f : good_fp_tag f → fp_tag f ∧ ¬ candidate_tag f.
Proof. intros (H1 & H2 & _). split; [by apply is_fingerprint_spec|]. rewrite <- is_candidate_spec. congruence. Qed.
Lemma row_fps_nonempty legacy ns r a i s : ∃ f, f ∈ row_fps legacy ns r a i s.
Proof.
  destruct r; unfold row_fps; eexists; [by apply elem_of_list_singleton|].
  apply elem_of_app. right. by apply elem_of_list_singleton.
Qed.
Lemma made_posting P acct pa bal st c ts ho t : hash_order_ok ho → made P c ts → t ∈ ts →
  tagged (Posting acct Real pa bal st (into_opt_comment ho c)) t.
Proof. intros Hho Hm Ht. unfold tagged, has_tag. cbn. by eapply made_survives. Qed.


Lemma import_post pd ho o records ns ts name rs n p :
  hash_order_ok ho → parser_ok pd → fields_ok records →
  nw_csv_import pd ho o records = Ok (ns, ts) → statement_reads pd records name rs →
  all_posts (as_merged ts) !! n = Some p →
  ∃ k s r a, let i := day_number (rec_date <$> rs) k in n = 2 * k + side_nat s ∧ rs !! k = Some r ∧ rec_ok r ∧
    self_amount_of (paid_in r) (paid_out r) = Ok a ∧ (Z.of_nat i ≤ I32_MAX)%Z ∧ fp_part ns ∧
    ∀ t, has_tag p t ↔ t ∈ extra_tags s ++ row_fps (nw_legacy o) ns r a (Z.of_nat i) s.
Proof.
  intros Hho Hpd Hf Hi Hs Hn.
  destruct (all_posts_lookup ts n p) as (k & s & t & p1 & p2 & -> & Hk & Ht & ->);
    [by intros t; eapply import_two|done|].
  apply import_row in Hi as (name' & rs' & Hs' & Hns & Hlen & Hrow).
  destruct (statement_fun _ _ _ _ _ _ Hs Hs') as [<- <-]. clear Hs'.
  destruct (Hrow k t Hk) as (r & a & c1 & c2 & Hr & Hi & Ha & Hpart & -> & M1 & M2). clear Hrow.
  destruct (statement_ok pd records name rs Hpd Hf Hs r) as [Hok Hcl]; [by eapply elem_of_list_lookup_2|].
  exists k, s, r, a. cbv zeta. cbn in Ht. injection Ht as <- <-. split_and!; [done..|].
  intros t. unfold has_tag. destruct s; cbn [pick fst snd posting_internal_of pi_comment p_comment]; by eapply made_exact.
Qed.
Lemma c43 pd ho o records ns ts name rs i j p q :
  hash_order_ok ho → parser_ok pd → fields_ok records →
  nw_csv_import pd ho o records = Ok (ns, ts) →
  statement_reads pd records name rs → contiguous (rec_date <$> rs) →
  all_posts (as_merged ts) !! i = Some p → all_posts (as_merged ts) !! j = Some q → i ≠ j →
  share_fp p q → statement_collides rs.
Proof.
  intros Hho Hpd Hf Him Hs Hc Hi Hj Hne (f & [Hff Hfp] & [_ Hfq]).
  destruct (import_post _ _ _ _ _ _ _ _ _ _ Hho Hpd Hf Him Hs Hi) as (k & s & r & a & -> & Hr & Hok & Ha & Hm & Hpart & Ht).
  destruct (import_post _ _ _ _ _ _ _ _ _ _ Hho Hpd Hf Him Hs Hj) as (k' & s' & r' & a' & -> & Hr' & Hok' & Ha' & Hm' & _ & Ht').
  cbv zeta in *. apply Ht, elem_of_app in Hfp as [Hfp|Hfp]; [by apply extra_not_fp in Hfp|].
  apply Ht', elem_of_app in Hfq as [Hfq|Hfq]; [by apply extra_not_fp in Hfq|].
  assert (match r, r' with Five _, Five _ | Six _, Six _ => True | _, _ => False end) as Hkind.
  { eapply statement_kind; [done|by eapply elem_of_list_lookup_2|by eapply elem_of_list_lookup_2]. }
  destruct (row_fps_inj _ _ _ _ _ _ _ _ _ _ f Hpart Hok Hok' Ha Ha' Hm Hm' Hkind Hfp Hfq) as [(Ed & Ei & ->)|(m & m' & H1 & H2 & H3)].
  - destruct Hne. f_equal. f_equal. apply (day_number_inj (rec_date <$> rs) _ _ (rec_date r)); [done|..|done].
    + by rewrite list_lookup_fmap, Hr.
    + by rewrite list_lookup_fmap, Hr', Ed.
  - exists k, k', r, r', m, m'. done.
Qed.
Lemma extra_not_candidate s f : f ∈ extra_tags s → ¬ candidate_tag f.
Proof.
  unfold extra_tags. rewrite !elem_of_cons. intros [->|[->|E%elem_of_nil]] (x & Hx); [|done|done]. by destruct s.
Qed.
Lemma import_mergeable pd ho o records ns ts p :
  hash_order_ok ho → parser_ok pd → fields_ok records →
  nw_csv_import pd ho o records = Ok (ns, ts) → p ∈ all_posts (as_merged ts) → mergeable p.
Proof.
  intros Hho Hpd Hf Him (n & Hn)%elem_of_list_lookup.
  pose proof Him as (name & rs & Hs & _)%import_reads.
  destruct (import_post _ _ _ _ _ _ _ _ _ _ Hho Hpd Hf Him Hs Hn) as (k & s & r & a & -> & Hr & Hok & Ha & Hm & Hpart & Ht).
  cbv zeta in *. split.
  - destruct (row_fps_nonempty (nw_legacy o) ns r a (Z.of_nat (day_number (rec_date <$> rs) k)) s) as (f & Hff).
    exists f. split; [by apply good_is_fp; eapply row_fps_good|]. apply Ht, elem_of_app. by right.
  - intros t [Htt|Htt]%Ht%elem_of_app.
    + by apply extra_not_candidate in Htt.
    + by apply good_is_fp; eapply row_fps_good.
Qed.
Lemma c52 pd ho o records ns ts name rs ho1 ho2 :
  hash_order_ok ho → hash_order_ok ho1 → hash_order_ok ho2 → parser_ok pd → fields_ok records →
  nw_csv_import pd ho o records = Ok (ns, ts) →
  statement_reads pd records name rs → contiguous (rec_date <$> rs) → ¬ statement_collides rs →
  ∃ m, merge ho1 merger_new (as_merged ts) = (m, Ok []) ∧
       build ho2 m = Ok (stable_sort (by_key tp_date) (as_merged ts)).
Proof.
  intros Hho H1 H2 Hpd Hf Him Hs Hc Hcol.
  assert (∀ tp, tp ∈ as_merged ts → tp_posts tp ≠ []) as Hne.
  { intros tp (t & -> & Ht)%elem_of_list_fmap. destruct (import_two _ _ _ _ _ _ _ Him Ht) as (p1 & p2 & E).
    cbn. by rewrite E. }
  destruct (from_empty ho1 ho2 (as_merged ts) H1 H2) as (m & Hm & Hb).
  - intros p Hp. by apply (import_mergeable pd ho o records ns ts).
  - intros i j p q Hi Hj Hsh. destruct (decide (i = j)) as [|Hij]; [done|]. destruct Hcol. by apply (c43 pd ho o records ns ts name rs i j p q).
  - exists m. split.
    + rewrite Hm. f_equal. f_equal. 
      destruct (filter _ _) as [|x l] eqn:E; [done|]. assert (x ∈ x :: l) as Hx by left. rewrite <- E in Hx.
      apply elem_of_list_filter in Hx as [Hx1 Hx2]. by destruct (Hne x).
    + rewrite Hb. f_equal. f_equal. apply filter_all. done.
Qed.

(** ** Amounts and accounts *)
Lemma dec_value_neg d : (dec_value (dec_neg d) == - dec_value d)%Q.
Proof.
  unfold dec_value, dec_neg, d_signed. cbn. destruct (d_neg d); cbn; unfold Qdiv.
  - rewrite <- Qopp_involutive at 1. apply Qopp_comp.
    assert (inject_Z (- Z.of_N (d_mant d)) == - inject_Z (Z.of_N (d_mant d)))%Q as -> by (by rewrite inject_Z_opp). ring.
  - assert (inject_Z (- Z.of_N (d_mant d)) == - inject_Z (Z.of_N (d_mant d)))%Q as -> by (by rewrite inject_Z_opp). ring.
Qed.
Lemma negate_opposite a : opposite a (negate_amount a).
Proof. split; [done|]. apply dec_value_neg. Qed.
Lemma two_balanced t p1 p2 a b : t_postings t = [p1; p2] →
  p_amount p1 = Some (PostingAmount a None None) → p_amount p2 = Some (PostingAmount b None None) → opposite a b → balanced t.
Proof.
  intros Et E1 E2 [Hc Hv]. split.
  - rewrite Et. intros p [->|[->|E%elem_of_nil]%elem_of_cons]%elem_of_cons; eauto; done.
  - intros c. rewrite Et. cbn [sum_value foldr]. unfold posting_value. rewrite E1, E2. cbn [pa_amount]. rewrite Hc.
    destruct (decide _); [rewrite Hv|]; ring.
Qed.

Lemma c45_nw pd ho o records ns ts t : nw_csv_import pd ho o records = Ok (ns, ts) → t ∈ ts → balanced t.
Proof.
  intros (name & rs & _ & _ & _ & H)%import_row (k & Hk)%elem_of_list_lookup.
  destruct (H k t Hk) as (r & a & c1 & c2 & _ & _ & _ & _ & -> & _).
  eapply two_balanced; [reflexivity|reflexivity|reflexivity|apply negate_opposite].
Qed.
Lemma dec_value_sign d : (dec_value d < 0 → d_neg d = true)%Q ∧ (0 < dec_value d → d_neg d = false)%Q.
Proof.
  assert (0 < / inject_Z (10 ^ Z.of_N (d_scale d)))%Q as Hp.
  { apply Qinv_lt_0_compat. rewrite <- (Zlt_Qlt 0). apply Z.pow_pos_nonneg; lia. }
  unfold dec_value, d_signed. destruct (d_neg d); split; intros H; try done.
  - exfalso. rewrite inject_Z_opp in H. unfold Qdiv in H.
    assert (- inject_Z (Z.of_N (d_mant d)) * / inject_Z (10 ^ Z.of_N (d_scale d)) ==
      - (inject_Z (Z.of_N (d_mant d)) / inject_Z (10 ^ Z.of_N (d_scale d))))%Q as E by (unfold Qdiv; ring).
    rewrite E in H. assert (0 <= inject_Z (Z.of_N (d_mant d)) / inject_Z (10 ^ Z.of_N (d_scale d)))%Q as H0.
    { apply Qmult_le_0_compat; [|by apply Qlt_le_weak]. rewrite <- (Zle_Qle 0). lia. }
    apply Qopp_le_compat in H0. by apply (Qlt_not_le _ _ H).
  - exfalso. apply (Qlt_not_le _ _ H). apply Qmult_le_0_compat; [|by apply Qlt_le_weak]. rewrite <- (Zle_Qle 0). lia.
Qed.
Lemma peer_account_ok a : peer_account_spec a (peer_account a).
Proof.
  destruct (dec_value_sign (a_quantity a)) as [H1 H2]. unfold peer_account. split_and!.
  - intros H. by rewrite (H1 H).
  - intros H. by rewrite (H2 H).
  - destruct (d_neg _); [by left|by right].
Qed.

Lemma rows_relate pd ho o records ns ts name rs (R : nw_record → transaction → Prop) :
  nw_csv_import pd ho o records = Ok (ns, ts) → statement_reads pd records name rs →
  (∀ r a c1 c2 i, self_amount_of (paid_in r) (paid_out r) = Ok a → fp_part ns →
    made (row_clean name r) c1 (extra_tags Self ++ row_fps (nw_legacy o) ns r a (Z.of_nat i) Self) →
    made (row_clean name r) c2 (extra_tags Peer ++ row_fps (nw_legacy o) ns r a (Z.of_nat i) Peer) →
    R r (Transaction None (rec_date r) None None None (rec_description r)
      [Posting ASSETS_UNKNOWN Real (Some (PostingAmount a None None)) (row_bal r) None (into_opt_comment ho c1);
       Posting (peer_account a) Real (Some (PostingAmount (negate_amount a) None None)) None None (into_opt_comment ho c2)])) →
  Forall2 R rs ts.
Proof.
  intros (name' & rs' & Hs' & _ & Hl & H)%import_row Hs HR.
  destruct (statement_fun _ _ _ _ _ _ Hs Hs') as [<- <-].
  apply Forall2_same_length_lookup_2; [done|]. intros k r t Hr Ht.
  destruct (H k t Ht) as (r' & a & c1 & c2 & Hr' & _ & Ha & Hp & -> & M1 & M2). simplify_eq.
  by eapply HR.
Qed.
Lemma c46_nw pd ho o records ns ts t : hash_order_ok ho → nw_csv_import pd ho o records = Ok (ns, ts) → t ∈ ts →
  ∃ own peer, t_postings t = [own; peer] ∧ sides own peer.
Proof.
  intros Hho (name & rs & _ & _ & _ & H)%import_row (k & Hk)%elem_of_list_lookup.
  destruct (H k t Hk) as (r & a & c1 & c2 & _ & _ & _ & _ & -> & M1 & M2).
  eexists _, _. split; [reflexivity|]. exists a, (negate_amount a). eexists. split_and!; [by split|by split|apply negate_opposite|apply peer_account_ok|..].
  - eapply made_posting; [done|exact M1|]. apply elem_of_app. left. right. left.
  - eapply made_posting; [done|exact M2|]. apply elem_of_app. left. right. left.
Qed.
Lemma c49_nw pd ho o records ns ts t p : hash_order_ok ho → nw_csv_import pd ho o records = Ok (ns, ts) →
  t ∈ ts → p ∈ t_postings t → fingerprinted p.
Proof.
  intros Hho (name & rs & _ & _ & _ & H)%import_row (k & Hk)%elem_of_list_lookup.
  destruct (H k t Hk) as (r & a & c1 & c2 & _ & _ & _ & Hpart & -> & M1 & M2). cbn [t_postings]. clear H Hk.
  set (i := day_number _ _) in *. clearbody i.
  intros [->|[->|E%elem_of_nil]%elem_of_cons]%elem_of_cons; [| |done].
  - destruct (row_fps_nonempty (nw_legacy o) ns r a (Z.of_nat i) Self) as (f & Hf). exists f. split.
    + by apply good_is_fp; eapply row_fps_good.
    + eapply (made_posting _ _ _ _ _ _ _ _ f); [done|exact M1|]. apply elem_of_app. by right.
  - destruct (row_fps_nonempty (nw_legacy o) ns r a (Z.of_nat i) Peer) as (f & Hf). exists f. split.
    + by apply good_is_fp; eapply row_fps_good.
    + eapply (made_posting _ _ _ _ _ _ _ _ f); [done|exact M2|]. apply elem_of_app. by right.
Qed.
Lemma description_ok r : rec_description r = row_description r.
Proof. destruct r as [[d t [|c l] po pi]|r]; cbn [rec_description row_description r5_location r5_transactions]; [|done|done]. by rewrite decide_True, app_nil_r. Qed.
Lemma c48 pd ho o records ns ts name rs : nw_csv_import pd ho o records = Ok (ns, ts) →
  statement_reads pd records name rs → Forall2 row_result rs ts.
Proof.
  intros Hi Hs. eapply rows_relate; [done|done|]. intros r a c1 c2 i Ha _ _ _.
  eexists _, _, a. split_and!; [done|by destruct r|by apply description_ok|by split| |].
  - by destruct r.
  - destruct (paid_in r) as [x|], (paid_out r) as [y|]; cbn in Ha; try done; injection Ha as <-.
    + left. done.
    + right. split; [done|]. exists y. split; [done|apply negate_opposite].
Qed.
Lemma c48_fails pd ho o records name rs r : statement_reads pd records name rs → r ∈ rs →
  (paid_in r = None ↔ paid_out r = None) → ∀ out, nw_csv_import pd ho o records ≠ Ok out.
Proof.
  intros Hs Hr Hb [ns ts] Hi. pose proof (c48 _ _ _ _ _ _ _ _ Hi Hs) as H.
  apply elem_of_list_lookup in Hr as (k & Hk). destruct (Forall2_lookup_l _ _ _ _ _ H Hk) as (t & _ & Ht).
  destruct Ht as (own & peer & a & _ & _ & _ & _ & _ & [[E1 E2]|[E1 (y & E2 & _)]]).
  - rewrite E1 in Hb. naive_solver.
  - rewrite E2 in Hb. naive_solver.
Qed.

(** ** Statements that are accepted *)
Lemma row_total ho r ns name i legacy a : self_amount_of (paid_in r) (paid_out r) = Ok a → fp_part ns → i ≠ I32_MAX →
  ∃ p1 p2, rec_form_postings ho r ns name i legacy = Ok (p1, p2).
Proof.
  intros Ha Hn Hi. assert (∀ alg v, fp_part alg → builder_new alg v ns = Ok (Builder [] alg v ns)) as Hb.
  { intros alg v Halg. by apply builder_new_ok. }
  assert (seq_value ns i = Ok (ns ++ s2l "-" ++ show_Z (i + 1))) as Hs.
  { unfold seq_value. by rewrite (proj2 (Z.eqb_neq i I32_MAX) Hi). }
  destruct r as [r|r]; cbn [rec_form_postings paid_in paid_out] in *.
  - unfold five_form_postings, five_fingerprint_v1. rewrite Ha. cbn [rbind]. rewrite Hb by apply part_five. cbn [rbind].
    rewrite Hs. cbn [rbind]. eauto.
  - unfold six_form_postings, six_fingerprint_v1. rewrite Ha. cbn [rbind]. rewrite Hb by apply part_six. cbn [rbind].
    rewrite Hs. cbn [rbind]. destruct legacy; [|cbn [rbind]; eauto].
    unfold six_fingerprint_legacy. rewrite Hb by apply part_nil. cbn [rbind]. eauto.
Qed.
Lemma run_length_le d h : run_length d h ≤ length h.
Proof. induction h as [|x h IH]; cbn; [lia|]. destruct (decide _); lia. Qed.
Lemma one_side_amount r : one_side r → ∃ a, self_amount_of (paid_in r) (paid_out r) = Ok a.
Proof. intros [[H1 H2]|[H1 H2]]; destruct (paid_in r), (paid_out r); try done; cbn; eauto. Qed.
Lemma rows_total ho legacy ns name h rs : fp_part ns → (∀ r, r ∈ rs → one_side r) →
  (Z.of_nat (length h + length rs) ≤ I32_MAX)%Z → ∃ ts, rows_give ho legacy ns name h rs ts.
Proof.
  intros Hn. revert h. induction rs as [|r rs IH]; intros h Ho Hl; [by exists []|].
  destruct (IH (rec_date r :: h)) as (ts & Hts). { intros x Hx. apply Ho. by right. } { cbn [length] in *. lia. }
  destruct (one_side_amount r) as (a & Ha). { apply Ho. left. }
  pose proof (run_length_le (rec_date r) h). cbn [length] in Hl.
  destruct (row_total ho r ns name (Z.of_nat (run_length (rec_date r) h)) legacy a Ha Hn) as (p1 & p2 & Hp); [lia|].
  eexists (_ :: ts). cbn [rows_give]. split; [|exact Hts]. exists p1, p2. split_and!; [done|lia|reflexivity].
Qed.
Lemma c48_accepts pd ho o records name rs ns : balances_read records → statement_reads pd records name rs →
  make_namespace (nw_fp_ns o) name = Ok ns → fp_part ns → (∀ r, r ∈ rs → one_side r) →
  (Z.of_nat (length rs) < 2147483648)%Z → ∃ ts, nw_csv_import pd ho o records = Ok (ns, ts).
Proof.
  intros (n & v1 & r1 & x1 & v2 & r2 & x2 & rest & -> & H1 & H2) (rest' & b & a & l & rows & E & Hrs) Hns Hp Ho Hl.
  apply cons_inj in E as [-> E]. apply cons_inj in E as [<- E]. apply cons_inj in E as [<- ->].
  destruct (rows_total ho (nw_legacy o) ns name [] rs Hp Ho) as (ts & Hts). { cbn. unfold I32_MAX. lia. }
  exists ts. apply import_spec. eexists _, _, _, l, rows, name, rs. split_and!; [reflexivity| |done|done].
  split_and!; [by apply account_name_ok; eexists|apply quantity_ok; by eexists _, _, _|apply quantity_ok; by eexists _, _, _|done].
Qed.
Lemma c48_only pd ho o records ns ts : nw_csv_import pd ho o records = Ok (ns, ts) →
  ∃ name rs, balances_read records ∧ statement_reads pd records name rs ∧ make_namespace (nw_fp_ns o) name = Ok ns ∧
    (∀ r, r ∈ rs → one_side r) ∧ (rs ≠ [] → fp_part ns).
Proof.
  intros Hi. pose proof Hi as (n & b & a & l & rows & name & rs & -> & (H1 & H2 & H3 & H4) & Hrs & Hg)%import_spec.
  pose proof Hi as (name' & rs' & Hs & _ & Hlen & H)%import_row.
  apply account_name_ok in H1 as (rest & ->). apply quantity_ok in H2 as (v1 & x1 & r1 & -> & H2).
  apply quantity_ok in H3 as (v2 & x2 & r2 & -> & H3).
  exists name, rs. assert (statement_reads pd ((s2l "Account Name:" :: name :: rest) :: (s2l "Account Balance:" :: v1 :: r1) ::
    (s2l "Available Balance:" :: v2 :: r2) :: header_of l :: rows) name rs) as Hs2 by by eexists _, _, _, _, _.
  destruct (statement_fun _ _ _ _ _ _ Hs Hs2) as [-> ->]. split_and!; [by repeat eexists|done|done|..].
  - intros r (k & Hk)%elem_of_list_lookup. destruct (lookup_lt_is_Some_2 ts k) as (t & Ht).
    { rewrite Hlen. by eapply lookup_lt_Some. }
    destruct (H k t Ht) as (r' & am & c1 & c2 & Hr' & _ & Ha & _). simplify_eq.
    unfold one_side. destruct (paid_in r), (paid_out r); try done; cbn in Ha; auto.
  - intros Hne. destruct rs as [|r rs]; [done|]. destruct ts as [|t ts]; [done|].
    destruct (H 0 t eq_refl) as (r' & am & c1 & c2 & _ & _ & _ & Hp & _). done.
Qed.

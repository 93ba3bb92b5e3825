(** Laws of the PDF importer (C65, C66, C76-C81). *)
From Verif Require Import MergeClaims.
From Verif Require Import Base Types SpecBase BaseProofs StrProofs CommentModel MergeModel Sha1 FingerprintModel NwCsvModel PaypalModel
  CommentClaims FingerprintClaims FingerprintProofs FingerprintLaws ImportClaims ImportProofs ImportLaws OcrModel PdfModel PdfClaims PdfTable PdfFold.
From Verif Require Import MergeProofs MergeLemmas MergeLaws4.
From Coq Require Import Lia QArith.
Local Open Scope nat_scope.

(** ** One transaction *)
Definition own_amount (b : trn_builder) : amount :=
  match tb_type b with Payment => negate_amount (tb_amount b) | Receipt => tb_amount b end.
Definition half_message (d : date) (n : Z) (desc : str) (h : account_amount) : list N :=
  with_amount (aa_amount h) (with_str (aa_account h) (with_str desc (with_i32 n (with_date d [])))).
Definition halves (a : amount) : account_amount * account_amount := self_and_peer_account_amount a ASSETS_UNKNOWN.
Definition pdf_fp (ns : str) (b : trn_builder) (s : side) : str :=
  legacy_tag (fp_of (s2l "nwpdf") 1 ns (half_message (tb_date b) (tb_counter b) (tb_description b) (pick s (halves (own_amount b))))).
Lemma part_pdf : fp_part (s2l "nwpdf"). Proof. by apply fp_part_rx_spec. Qed.
Lemma pdf_fp_good ns b s : fp_part ns → good_fp_tag (pdf_fp ns b s).
Proof. intros H. apply good_legacy_tag, fp_of_ok; [apply part_pdf|done]. Qed.
Lemma build_trn_shape ho ns b t : build_trn ho ns b = Ok t → fp_part ns ∧ tb_counter b ≠ I32_MAX ∧ ∃ c1 c2,
  t = Transaction None (tb_date b) (tb_effective b) None None (tb_description b)
    [Posting ASSETS_UNKNOWN Real (Some (PostingAmount (own_amount b) None None)) (BalAmount <$> tb_balance b) None (into_opt_comment ho c1);
     Posting (peer_account (own_amount b)) Real (Some (PostingAmount (negate_amount (own_amount b)) None None)) None None (into_opt_comment ho c2)] ∧
  made True c1 (extra_tags Self ++ [pdf_fp ns b Self]) ∧ made True c2 (extra_tags Peer ++ [pdf_fp ns b Peer]).
Proof.
  unfold build_trn. destruct (builder_new _ _ _) as [fb| |] eqn:Ef; cbn [rbind]; [|done|done].
  apply builder_new_ok in Ef as (_ & Hn & ->). destruct (seq_value _ _) as [seq| |] eqn:Es; cbn [rbind]; [|done|done].
  intros E. apply Ok_inj in E as <-. split; [done|]. split.
  { intros Hm. rewrite Hm in Es. unfold seq_value in Es. by rewrite Z.eqb_refl in Es. }
  eexists _, _. split; [reflexivity|]. split.
  - eapply made_perm; [|apply made_tag; [apply good_tag_ok, (pdf_fp_good ns b Self Hn)|];
      apply made_tag; [apply tag_self|]; apply made_value; [apply key_seq|intros _; by eapply seq_clean|];
      apply made_tag; [apply tag_unknown|]; apply made_value; [apply key_bank|intros _; apply bank_clean|apply made_new]].
    intros t. unfold extra_tags. rewrite elem_of_app, !elem_of_cons. set_solver.
  - eapply made_perm; [|apply made_tag; [apply good_tag_ok, (pdf_fp_good ns b Peer Hn)|];
      apply made_tag; [apply tag_peer|]; 
      apply made_tag; [apply tag_unknown|]; apply made_value; [apply key_bank|intros _; apply bank_clean|apply made_new]].
    intros t. unfold extra_tags. rewrite elem_of_app, !elem_of_cons. set_solver.
Qed.
Lemma build_trn_total ho ns b : fp_part ns → tb_counter b ≠ I32_MAX → ∃ t, build_trn ho ns b = Ok t.
Proof.
  intros Hn Hc. unfold build_trn.
  assert (builder_new (s2l "nwpdf") 1 ns = Ok (Builder [] (s2l "nwpdf") 1 ns)) as -> by (apply builder_new_ok; split; [apply part_pdf|done]).
  cbn [rbind]. unfold seq_value. rewrite (proj2 (Z.eqb_neq _ _) Hc). cbn [rbind]. eauto.
Qed.

(** ** Groups *)
Lemma builds_reads E n g b : builds E n g b → ∃ es bs, group_reads E g (tb_date b) (own_amount b) es bs ∧
  tb_counter b = Z.of_nat n ∧ tb_effective b = last es ∧ tb_description b = group_description g ∧ tb_balance b = last bs.
Proof.
  intros (d & a & ty & es & bs & (Hd & Hneg & s & Hs & Hty) & He & Hb & ->). exists es, bs. split; [|done].
  split; [done| |done|done]. exists s, a. split; [done|]. split; [done|]. destruct ty; cbn in *; [right|left]; destruct Hty; done.
Qed.
Lemma reads_builds E n g d a es bs : group_reads E g d a es bs → ∃ b, builds E n g b ∧ tb_counter b = Z.of_nat n.
Proof.
  intros [Hd (s & b & Hs & Hneg & H) He Hb].
  destruct H as [(H1 & H2 & ->)|(H1 & H2 & ->)].
  - exists (TrnBuilder d (Z.of_nat n) b Receipt (last es) (group_description g) (last bs)). split; [|done].
    exists d, b, Receipt, es, bs. split; [|done]. split; [done|]. split; [done|]. by exists s.
  - exists (TrnBuilder d (Z.of_nat n) b Payment (last es) (group_description g) (last bs)). split; [|done].
    exists d, b, Payment, es, bs. split; [|done]. split; [done|]. split; [done|]. by exists s.
Qed.
Lemma sequence_cons prev n g gs : sequence prev n (g :: gs) =
  next_number prev n g.1 :: sequence (default (tl_date g.1) (tl_date <$> last g.2)) (next_number prev n g.1) gs.
Proof. done. Qed.
Lemma sequence_length prev n gs : length (sequence prev n gs) = length gs.
Proof. revert prev n. induction gs as [|g gs IH]; intros prev n; [done|]. rewrite sequence_cons. cbn. by rewrite IH. Qed.
Lemma gives_lookup E ho ns prev n gs ts : gives E ho ns prev n gs ts → length ts = length gs ∧
  ∀ k t, ts !! k = Some t → ∃ g m b, gs !! k = Some g ∧ sequence prev n gs !! k = Some m ∧
    builds E m g b ∧ build_trn ho ns b = Ok t ∧ (Z.of_nat m < I32_MAX)%Z.
Proof.
  revert prev n ts. induction gs as [|g gs IH]; intros prev n [|t ts]; cbn [gives]; try done.
  intros (b & Hmax & Hb & Ht & Hg). destruct (IH _ _ _ Hg) as [Hl Hk]. split; [cbn; by rewrite Hl|].
  intros [|k] t' Htk.
  - injection Htk as <-. exists g, (next_number prev n g.1), b. rewrite sequence_cons. split; [done|]. split; [done|]. split; [done|]. split; [done|].
    apply build_trn_shape in Ht as (_ & Hc & _). apply builds_reads in Hb as (_ & _ & _ & Hb & _). lia.
  - destruct (Hk k t' Htk) as (g' & m & b' & H1 & H2 & H3 & H4). exists g', m, b'. rewrite sequence_cons. done.
Qed.
Lemma gives_total E ho ns prev n gs : fp_part ns → (∀ g, g ∈ gs → ∃ d a es bs, group_reads E g d a es bs) →
  (∀ m, m ∈ sequence prev n gs → (Z.of_nat m < I32_MAX)%Z) → ∃ ts, gives E ho ns prev n gs ts.
Proof.
  intros Hn. revert prev n. induction gs as [|g gs IH]; intros prev n Hr Hs; [by exists []|].
  rewrite sequence_cons in Hs. destruct (Hr g) as (d & a & es & bs & Hg); [left|].
  destruct (reads_builds E (next_number prev n g.1) g d a es bs Hg) as (b & Hb & Hc).
  assert (Z.of_nat (next_number prev n g.1) < I32_MAX)%Z as Hm by (apply Hs; left).
  destruct (build_trn_total ho ns b Hn) as (t & Ht); [lia|].
  destruct (IH (default (tl_date g.1) (tl_date <$> last g.2)) (next_number prev n g.1)) as (ts & Hts).
  - intros g' Hg'. apply Hr. by right.
  - intros m Hm'. apply Hs. by right.
  - exists (t :: ts). cbn [gives]. exists b. split; [lia|]. done.
Qed.
Lemma built_transaction E ho ns n g b t : builds E n g b → build_trn ho ns b = Ok t → group_transaction E g t.
Proof.
  intros (es & bs & Hr & Hc & He & Hd & Hb)%builds_reads (_ & _ & c1 & c2 & -> & _)%build_trn_shape.
  eexists _, _, es, bs, _, _, _, _. split; [exact Hr|]. cbn [t_date t_effective_date t_description t_status t_code t_comment t_postings].
  split; [done|]. split; [done|]. split; [done|]. split; [done|]. split; [done|]. split; [done|]. split; [reflexivity|]. split; [by split|].
  cbn [p_balance]. split; [by rewrite Hb|]. split; [by split|]. split; [apply negate_opposite|]. split; [apply peer_account_ok|done].
Qed.

(** ** The account *)
Lemma digit_two a b : rx_digit a = true → rx_digit b = true → digit_text 2 [a; b].
Proof. intros Ha Hb. split; [done|]. intros c. rewrite !elem_of_cons, elem_of_nil. by intros [->|[->|[]]]. Qed.
Lemma sort_code_spec s : sort_code_rx s = true ↔ ∃ a b c, digit_text 2 a ∧ digit_text 2 b ∧ digit_text 2 c ∧ s = a ++ s2l "-" ++ b ++ s2l "-" ++ c.
Proof.
  unfold sort_code_rx. split.
  - intros H. destruct s as [|a [|b [|x [|c [|d [|y [|e [|f [|]]]]]]]]]; try done. rewrite !andb_true_iff in H.
    destruct H as (((((((H1&H2)&H3%N.eqb_eq)&H4)&H5)&H6%N.eqb_eq)&H7)&H8). subst.
    exists [a; b], [c; d], [e; f]. split; [by apply digit_two|]. split; [by apply digit_two|]. split; [by apply digit_two|]. done.
  - intros (a & b & c & [Ha1 Ha2] & [Hb1 Hb2] & [Hc1 Hc2] & ->).
    destruct a as [|a1 [|a2 [|]]]; try done. destruct b as [|b1 [|b2 [|]]]; try done. destruct c as [|c1 [|c2 [|]]]; try done.
    change (s2l "-") with [MINUS]. cbn [app]. rewrite !N.eqb_refl.
    rewrite (Ha2 a1), (Ha2 a2), (Hb2 b1), (Hb2 b2), (Hc2 c1), (Hc2 c2) by (rewrite !elem_of_cons; auto). done.
Qed.
Lemma acct_num_spec s : acct_num_rx s = true ↔ digit_text 8 s.
Proof.
  unfold acct_num_rx, digit_text. rewrite andb_true_iff, bool_decide_eq_true, forallb_forall. by setoid_rewrite elem_of_list_In.
Qed.
Lemma account_name_spec l n : account_name_in l = Some n ↔ names_account l n.
Proof.
  unfold account_name_in, names_account. split.
  - destruct (ln_words l) as [|w0 [|w1 [|w2 [|w3 rest]]]]; try done.
    destruct (_ && _) eqn:H; [|done]. rewrite !andb_true_iff in H. destruct H as (((H0%seqb & H1%seqb) & H2%sort_code_spec) & H3%acct_num_spec).
    intros [= <-]. destruct H2 as (a & b & c & Ha & Hb & Hc & Hs). exists w0, w1, w2, w3, rest, a, b, c. done.
  - intros (w0 & w1 & w2 & w3 & rest & a & b & c & -> & H0 & H1 & Ha & Hb & Hc & H2 & H3 & ->).
    assert (sort_code_rx (wd_text w2) = true) as E2 by (apply sort_code_spec; eauto 10).
    assert (acct_num_rx (wd_text w3) = true) as E3 by (by apply acct_num_spec).
    assert (str_eqb (wd_text w0) (s2l "Account") = true) as E0 by (by apply seqb).
    assert (str_eqb (wd_text w1) (s2l "Number") = true) as E1 by (by apply seqb).
    by rewrite E0, E1, E2, E3.
Qed.
Lemma names_account_fun l n n' : names_account l n → names_account l n' → n = n'.
Proof. rewrite <- !account_name_spec. congruence. Qed.
Lemma first_account_spec ls n : first_account_name ls = Some n ↔
  ∃ above l below, ls = above ++ l :: below ∧ names_account l n ∧ ∀ l' n', l' ∈ above → ¬ names_account l' n'.
Proof.
  induction ls as [|l ls IH]; cbn [first_account_name].
  - split; [done|]. intros (above & x & below & E & _). by destruct above.
  - destruct (account_name_in l) as [m|] eqn:E.
    + split.
      * intros [= <-]. exists [], l, ls. split; [done|]. split; [by apply account_name_spec|]. intros l' n' H. by apply elem_of_nil in H.
      * intros ([|x above] & y & below & [= -> ->] & Hy & Ha).
        -- apply account_name_spec in Hy. congruence.
        -- exfalso. eapply (Ha x); [left|by apply account_name_spec].
    + rewrite IH. split.
      * intros (above & y & below & -> & Hy & Ha). exists (l :: above), y, below. split; [done|]. split; [done|].
        intros l' n' [->|Hl']%elem_of_cons; [rewrite <- account_name_spec; congruence|by apply Ha].
      * intros ([|x above] & y & below & [= -> ->] & Hy & Ha).
        -- apply account_name_spec in Hy. congruence.
        -- exists above, y, below. split; [done|]. split; [done|]. intros l' n' Hl'. apply Ha. by right.
Qed.
Lemma account_spec doc n : find_account_name doc = Some n ↔ account_is doc n.
Proof.
  unfold find_account_name, account_is, doc_lines. assert (iter_paragraphs doc = doc_paragraphs doc) as ->; [|apply first_account_spec].
  unfold iter_paragraphs, doc_paragraphs. induction doc as [|p doc IH]; [done|]. by rewrite !bind_cons, bind_app, IH.
Qed.
Lemma account_fun doc n n' : account_is doc n → account_is doc n' → n = n'.
Proof. rewrite <- !account_spec. congruence. Qed.

(** ** The import *)
Lemma statement_fun' E doc ls ls' : statement_lines E doc ls → statement_lines E doc ls' → ls = ls'.
Proof.
  rewrite !statement_lines_model. intros (l1 & u1 & F1 & G1 & ->) (l2 & u2 & F2 & G2 & ->).
  assert (l1 = l2) as <-.
  { clear G1 G2. revert l2 F2. induction F1 as [|t x ts l1 Hx F1 IH]; intros l2 F2.
    - by apply Forall2_nil_inv_l in F2.
    - apply Forall2_cons_inv_l in F2 as (y & l2' & Hy & F2 & ->). f_equal; [congruence|]. by apply IH. }
  f_equal. clear F1 F2. revert u2 G2. induction G1 as [|l x ls u1 Hx F1 IH]; intros u2 F2.
  - by apply Forall2_nil_inv_l in F2.
  - apply Forall2_cons_inv_l in F2 as (y & l2' & Hy & F2 & ->). apply before_gap_upto in Hx, Hy. f_equal; [congruence|]. by apply IH.
Qed.

(** [pdf_import] in terms of the specification. *)
Lemma c66_only E ho o doc ns ts : pdf_import E ho o doc = Ok (ns, ts) →
  ∃ name ls skip gs, account_is doc name ∧ make_namespace o name = Ok ns ∧ statement_lines E doc ls ∧ grouped ls skip gs ∧
    (gs ≠ [] → fp_part ns) ∧ (∀ m, m ∈ sequence None 0 gs → (Z.of_nat m < 2147483647)%Z) ∧ Forall2 (group_transaction E) gs ts.
Proof.
  intros (name & ls & skip & gs & Hn & Hns & Hls & Hg & Hgv)%import_lines. exists name, ls, skip, gs.
  apply gives_lookup in Hgv as [Hl Hk]. split; [by apply account_spec|]. split; [done|]. split; [done|]. split; [done|]. split; [|split].
  - intros Hne. destruct gs as [|g gs]; [done|]. destruct ts as [|t ts]; [done|].
    destruct (Hk 0 t eq_refl) as (g' & m & b & _ & _ & _ & Ht & _). by apply build_trn_shape in Ht as [? _].
  - intros m (k & Hm)%elem_of_list_lookup. assert (k < length ts) as (t & Ht)%lookup_lt_is_Some.
    { apply lookup_lt_Some in Hm. rewrite sequence_length in Hm. lia. }
    destruct (Hk k t Ht) as (g & m' & b & _ & Hm' & Hb & Hbt & Hmax). simplify_eq. done.
  - apply Forall2_same_length_lookup_2; [done|]. intros k g t Hgk Htk.
    destruct (Hk k t Htk) as (g' & m & b & Hg' & _ & Hb & Ht & _). simplify_eq. by eapply built_transaction.
Qed.
Lemma c66_accepts E ho o doc name ns ls skip gs : account_is doc name → make_namespace o name = Ok ns → statement_lines E doc ls →
  grouped ls skip gs → (gs ≠ [] → fp_part ns) → (∀ g, g ∈ gs → ∃ d a es bs, group_reads E g d a es bs) →
  (∀ m, m ∈ sequence None 0 gs → (Z.of_nat m < 2147483647)%Z) → ∃ ts, pdf_import E ho o doc = Ok (ns, ts).
Proof.
  intros Hn Hns Hls Hg Hp Hr Hs. assert (∃ ts, gives E ho ns None 0 gs ts) as (ts & Hts).
  { destruct (decide (gs = [])) as [->|Hne]; [by exists []|]. apply gives_total; [by apply Hp|done|done]. }
  exists ts. apply import_lines. exists name, ls, skip, gs. split; [by apply account_spec|]. done.
Qed.
Lemma c66_groups E ho o doc ns ts ls skip gs : pdf_import E ho o doc = Ok (ns, ts) → statement_lines E doc ls → grouped ls skip gs →
  Forall2 (group_transaction E) gs ts.
Proof.
  intros (name & ls' & skip' & gs' & _ & _ & Hls' & Hg' & _ & _ & H)%c66_only Hls Hg.
  assert (ls' = ls) as -> by (by eapply statement_fun'). by destruct (grouping_fun _ _ _ _ _ Hg Hg') as [-> ->].
Qed.
Lemma sequence_le prev n gs m : m ∈ sequence prev n gs → m ≤ n + length gs.
Proof.
  revert prev n. induction gs as [|g gs IH]; intros prev n; [by intros H%elem_of_nil|]. rewrite sequence_cons.
  assert (next_number prev n g.1 ≤ S n) by (unfold next_number; destruct (decide _); lia).
  intros [->|Hx%IH]%elem_of_cons; cbn [length]; lia.
Qed.
Lemma elem_group l ls skip (gs : list group) : grouped ls skip gs → l ∈ ls → starts l → ∃ g, g ∈ gs ∧ l = g.1.
Proof.
  intros (-> & Hs & Hg) Hl Hst. pose proof (proj1 (Forall_forall _ _) Hs) as Hs'. pose proof (proj1 (Forall_forall _ _) Hg) as Hg'. apply elem_of_app in Hl as [Hl|Hl].
  - apply Hs' in Hl. by apply not_starts in Hl.
  - apply elem_of_list_bind in Hl as (g & Hlg & Hgg). exists g. split; [done|]. apply Hg' in Hgg as [_ Hc].
    apply elem_of_cons in Hlg as [->|H]; [done|]. apply (proj1 (Forall_forall _ _) Hc) in H. by apply not_starts in H.
Qed.
Lemma c66_both E ho o doc ls l : statement_lines E doc ls → l ∈ ls → tl_payment l ≠ None → tl_receipt l ≠ None →
  ∀ out, pdf_import E ho o doc ≠ Ok out.
Proof.
  intros Hls Hl Hp Hr [ns ts] Hi. destruct (grouping ls) as (skip & gs & Hg).
  pose proof (c66_groups _ _ _ _ _ _ _ _ _ Hi Hls Hg) as H.
  destruct (elem_group l ls skip gs Hg Hl) as (g & (k & Hk)%elem_of_list_lookup & ->); [by left|].
  destruct (Forall2_lookup_l _ _ _ _ _ H Hk) as (t & _ & d & a & es & bs & own & peer & b & acct & [_ (s & x & _ & _ & Ha) _ _] & _).
  destruct Ha as [(_ & ? & _)|(_ & ? & _)]; done.
Qed.

(** ** Sequence numbers *)
Lemma sequence_run d n (gs : list group) (g : group) rest : (∀ l, l ∈ gs ≫= group_lines → tl_date l = d) → tl_date g.1 = d →
  sequence d n (gs ++ g :: rest) !! length gs = Some (n + S (length gs)).
Proof.
  revert n. induction gs as [|g' gs IH]; intros n Hd Hg.
  - cbn [app length]. rewrite sequence_cons. unfold next_number. rewrite decide_True by done. cbn. f_equal. lia.
  - cbn [app length]. rewrite sequence_cons.
    assert (∀ l, l ∈ group_lines g' → tl_date l = d) as Hg'.
    { intros l Hl. apply Hd. rewrite bind_cons. apply elem_of_app. by left. }
    assert (tl_date g'.1 = d) as H1 by (apply Hg'; left).
    assert (default (tl_date g'.1) (tl_date <$> last g'.2) = d) as ->.
    { destruct (last g'.2) as [l|] eqn:El; [|done]. cbn. apply Hg'. right. apply last_Some in El as (l' & ->). apply elem_of_app. right. left. }
    change (?x :: ?y) with ([x] ++ y). rewrite lookup_app_r by (cbn; lia). cbn [length]. rewrite Nat.sub_succ, Nat.sub_0_r.
    unfold next_number. rewrite decide_True by done. rewrite IH; [f_equal; lia| |done].
    intros l Hl. apply Hd. rewrite bind_cons. apply elem_of_app. by right.
Qed.
Lemma sequence_app prev n gs rest : ∃ prev' n', sequence prev n (gs ++ rest) = sequence prev n gs ++ sequence prev' n' rest.
Proof.
  revert prev n. induction gs as [|g gs IH]; intros prev n; [by exists prev, n|]. cbn [app]. rewrite !sequence_cons.
  destruct (IH (default (tl_date g.1) (tl_date <$> last g.2)) (next_number prev n g.1)) as (p & m & E). exists p, m. by rewrite E.
Qed.
Lemma together_middle {A} (l1 mid l2 : list A) x : together (l1 ++ x :: mid ++ x :: l2) → ∀ y, y ∈ mid → y = x.
Proof.
  intros H y (k & Hk)%elem_of_list_lookup. pose proof (lookup_lt_Some _ _ _ Hk) as Hl.
  specialize (H (length l1) (length l1 + S k) (length l1 + S (length mid)) x).
  rewrite list_lookup_middle in H by done.
  rewrite !lookup_app_r in H by lia. replace (length l1 + S k - length l1) with (S k) in H by lia.
  replace (length l1 + S (length mid) - length l1) with (S (length mid)) in H by lia.
  change ((x :: mid ++ x :: l2) !! S ?n) with ((mid ++ x :: l2) !! n) in H.
  rewrite list_lookup_middle in H by done. rewrite lookup_app_l in H by done. rewrite Hk in H.
  assert (Some y = Some x) as E by (apply H; [lia|lia|done|done]). congruence.
Qed.
Lemma sequence_lt (gs : list group) i j (g g' : group) n n' prev n0 : i < j → together (tl_date <$> (gs ≫= group_lines)) → gs !! i = Some g → gs !! j = Some g' →
  tl_date g.1 = tl_date g'.1 → sequence prev n0 gs !! i = Some n → sequence prev n0 gs !! j = Some n' → n < n'.
Proof.
  intros Hij Ht Hi Hj Hd Hn Hn'.
  pose proof (take_drop_middle _ _ _ Hi) as Egs.
  assert (drop (S i) gs !! (j - S i) = Some g') as Hj' by (rewrite lookup_drop; rewrite <- Hj; f_equal; lia).
  pose proof (take_drop_middle _ _ _ Hj') as Egs'.
  set (a := take i gs) in *. set (mid := take (j - S i) (drop (S i) gs)) in *. set (rest := drop (S (j - S i)) (drop (S i) gs)) in *.
  assert (length a = i) as La by (exact (take_length_le _ _ (Nat.lt_le_incl _ _ (lookup_lt_Some _ _ _ Hi)))).
  assert (length mid = j - S i) as Lm by (exact (take_length_le _ _ (Nat.lt_le_incl _ _ (lookup_lt_Some _ _ _ Hj')))).
  rewrite <- Egs' in Egs. clearbody a mid rest. subst gs. clear Egs' Hi Hj Hj'.
  rewrite bind_app, bind_cons, bind_app, bind_cons, fmap_app in Ht. unfold group_lines in Ht at 2. cbn [app] in Ht. rewrite fmap_cons in Ht.
  rewrite app_assoc, fmap_app in Ht. unfold group_lines at 3 in Ht. cbn [app] in Ht. rewrite (fmap_cons _ g'.1), <- Hd in Ht.
  pose proof (together_middle _ _ _ _ Ht) as Hm.
  destruct (sequence_app prev n0 a (g :: mid ++ g' :: rest)) as (p & m & E). rewrite E in Hn, Hn'. clear E.
  pose proof (sequence_length prev n0 a) as Hl.
  rewrite lookup_app_r in Hn, Hn' by lia. rewrite Hl, La in Hn, Hn'. rewrite Nat.sub_diag in Hn. rewrite sequence_cons in Hn, Hn'.
  injection Hn as <-. replace (j - i) with (S (j - S i)) in Hn' by lia. change ((?x :: ?l) !! S ?k) with (l !! k) in Hn'.
  assert (default (tl_date g.1) (tl_date <$> last g.2) = tl_date g.1) as E.
  { destruct (last g.2) as [l|] eqn:El; [|done]. cbn. apply Hm, elem_of_list_fmap. exists l. split; [done|]. apply elem_of_app. left.
    apply last_Some in El as (l' & ->). apply elem_of_app. right. left. }
  rewrite E, <- Lm, sequence_run in Hn'; [injection Hn' as <-; lia| |done].
  intros l Hl'. apply Hm, elem_of_list_fmap. exists l. split; [done|]. apply elem_of_app. by right.
Qed.
Lemma sequence_inj (gs : list group) i j (g g' : group) n : together (tl_date <$> (gs ≫= group_lines)) → gs !! i = Some g → gs !! j = Some g' →
  tl_date g.1 = tl_date g'.1 → sequence None 0 gs !! i = Some n → sequence None 0 gs !! j = Some n → i = j.
Proof.
  intros Ht Hi Hj Hd Hn Hn'. destruct (Nat.lt_trichotomy i j) as [H|[H|H]]; [|done|].
  - pose proof (sequence_lt gs i j g g' n n None 0 H Ht Hi Hj Hd Hn Hn'). lia.
  - symmetry in Hd. pose proof (sequence_lt gs j i g' g n n None 0 H Ht Hj Hi Hd Hn' Hn). lia.
Qed.

(** ** Dates of lines *)
Definition line_date_ok (d : date) : Prop := let '(y, m, d) := d in (1980 ≤ y ≤ 2100)%Z ∧ valid_date y m d.
Lemma table_date E c ls rs r d : table_reads E c ls rs → r ∈ rs → tl_date r = Some d → line_date_ok d.
Proof.
  intros [Hr Hf] (k & Hk)%elem_of_list_lookup Hd. destruct (Forall2_lookup_r _ _ _ _ _ Hf Hk) as ([j l] & _ & H & _). cbn [fst snd] in H.
  pose proof (proj1 (H d) Hd) as (j' & _ & (l' & day & month & y & m & dd & _ & _ & _ & _ & Hy & Hv & ->) & _).
  destruct Hy as (i & x & w & _ & Hx & Hw & Hy & _).
  split; [|exact Hv].
  destruct (Hr i x Hx) as [H0|[(w' & y' & H1 & H2 & H3)|(dt & l2 & a & b & y2 & m2 & d2 & Hl2 & Hc2 & _)]]; [congruence|..].
  - rewrite Hw in H1. simplify_eq. done.
  - simplify_eq. congruence.
Qed.
Lemma statement_date E doc ls l d : statement_lines E doc ls → l ∈ ls → tl_date l = Some d → line_date_ok d.
Proof.
  intros (tabs & lss & used & _ & Hl & Hu & ->) (u & Hlu & (k & Hk)%elem_of_list_lookup)%elem_of_list_join Hd.
  destruct (Forall2_lookup_r _ _ _ _ _ Hu Hk) as (rs & Hrs & rest & -> & _).
  destruct (Forall2_lookup_r _ _ _ _ _ Hl Hrs) as (t & _ & Ht). eapply table_date; [exact Ht| |exact Hd]. apply elem_of_app. by left.
Qed.
Lemma line_date_date d : line_date_ok d → date_ok d.
Proof.
  destruct d as [[y m] d]. unfold line_date_ok, date_ok, valid_date. intros (Hy & Hm & Hd & [H|[(_ & -> & _)|[[_ H]|[_ ->]]]]); lia.
Qed.

(** ** Fingerprints *)
Lemma half_message_inj d d' n n' s s' h h' : date_ok d → date_ok d' → i32_ok n → i32_ok n' → str_ok s → str_ok s' →
  str_ok (aa_account h) → str_ok (aa_account h') → amount_ok (aa_amount h) → amount_ok (aa_amount h') →
  half_message d n s h = half_message d' n' s' h' → d = d' ∧ n = n' ∧ s = s' ∧ h = h'.
Proof.
  intros ?????????? E. unfold half_message in E. apply app_eq_nil_r in E. flatten E.
  apply with_date_pf in E as [E1 E]; [|done|done].
  apply with_i32_pf in E as [E2 E]; [|done|done].
  apply with_str_pf in E as [E3 E]; [|done|done].
  apply with_str_pf in E as [E4 E]; [|done|done].
  apply with_amount_pf in E as [E5 E]; [|done|done].
  destruct h, h'; cbn in *; by subst.
Qed.
Lemma pdf_legacy_inj ns ns' m m' : fp_part ns → fp_part ns' →
  legacy_tag (fp_of (s2l "nwpdf") 1 ns m) = legacy_tag (fp_of (s2l "nwpdf") 1 ns' m') → ns = ns' ∧ sha1 m = sha1 m'.
Proof.
  intros Hn Hn' E. pose proof part_pdf.
  apply legacy_tag_inj in E as [E1 E2]; [|by apply fp_of_ok|by apply fp_of_ok].
  split; [done|]. by apply into_base64_inj.
Qed.
Lemma GBP_ok' : str_ok (cm_name (Commodity (s2l "GBP") PosLeft)).
Proof. apply str_ok_check; reflexivity. Qed.
Lemma group_amount_ok E l a : env_ok E → group_amount E l a → amount_ok a.
Proof.
  intros HE (s & b & [Hq Hc] & _ & H). pose proof GBP_ok' as HG. apply HE in Hq.
  assert (amount_ok b) as [? ?] by (split; [done|by rewrite Hc]).
  destruct H as [(_ & _ & ->)|(_ & _ & ->)]; [done|]. split; [|done]. by destruct (a_quantity b).
Qed.
(** Everything about one posting of an import. *)
Lemma pdf_post E ho o doc ns ts ls skip gs n p : hash_order_ok ho → pdf_import E ho o doc = Ok (ns, ts) →
  statement_lines E doc ls → grouped ls skip gs → all_posts (as_merged ts) !! n = Some p →
  ∃ k s g m b t, n = 2 * k + side_nat s ∧ ts !! k = Some t ∧ gs !! k = Some g ∧ sequence None 0 gs !! k = Some m ∧ builds E m g b ∧
    build_trn ho ns b = Ok t ∧ (Z.of_nat m < I32_MAX)%Z ∧ fp_part ns ∧ ∀ x, has_tag p x ↔ x ∈ extra_tags s ++ [pdf_fp ns b s].
Proof.
  intros Hho (name & ls' & skip' & gs' & _ & _ & Hls' & Hg' & Hgv)%import_lines Hls Hg Hp.
  assert (ls' = ls) as -> by (by eapply statement_fun'). destruct (grouping_fun _ _ _ _ _ Hg Hg') as [-> ->].
  apply gives_lookup in Hgv as [Hl Hk].
  destruct (all_posts_lookup ts n p) as (k & s & t & p1 & p2 & -> & Ht & Htp & ->).
  - intros t (k & Hkt)%elem_of_list_lookup. destruct (Hk k t Hkt) as (g & m & b & _ & _ & _ & Hb & _).
    apply build_trn_shape in Hb as (_ & _ & c1 & c2 & -> & _). cbn. eauto.
  - done.
  - destruct (Hk k t Ht) as (g & m & b & H1 & H2 & H3 & H4 & H5). exists k, s, g, m, b, t.
    pose proof (build_trn_shape _ _ _ _ H4) as (Hn & _ & c1 & c2 & Et & M1 & M2). split; [done|]. split; [done|]. split; [done|]. split; [done|].
    split; [done|]. split; [done|]. split; [done|]. split; [done|]. rewrite Et in Htp. cbn in Htp. injection Htp as <- <-.
    intros x. unfold has_tag. destruct s; [exact (made_exact True _ _ ho x Hho I M1)|exact (made_exact True _ _ ho x Hho I M2)].
Qed.
Lemma pick_posting ho ns b t s n : build_trn ho ns b = Ok t → tb_counter b = Z.of_nat n →
  posting_message t n (half_message (tb_date b) (tb_counter b) (tb_description b) (pick s (halves (own_amount b)))).
Proof.
  intros (_ & _ & c1 & c2 & -> & _)%build_trn_shape ->. destruct s.
  - eexists _, (own_amount b). split; [left|]. split; [by split|]. reflexivity.
  - eexists _, (negate_amount (own_amount b)). split; [right; left|]. split; [by split|]. reflexivity.
Qed.
Lemma group_line ls skip (gs : list group) g : grouped ls skip gs → g ∈ gs → g.1 ∈ ls.
Proof.
  intros (-> & _ & _) Hg. apply elem_of_app. right. apply elem_of_list_bind. exists g. split; [left|done].
Qed.
Lemma c76 E ho o doc ns ts ls skip gs i j p q : hash_order_ok ho → env_ok E → (∀ t, t ∈ ts → str_ok (t_description t)) →
  pdf_import E ho o doc = Ok (ns, ts) → statement_lines E doc ls → grouped ls skip gs →
  together (tl_date <$> (gs ≫= group_lines)) →
  all_posts (as_merged ts) !! i = Some p → all_posts (as_merged ts) !! j = Some q → i ≠ j → share_fp p q →
  pdf_collides ts (sequence None 0 gs).
Proof.
  intros Hho HE Hd Him Hls Hg Ht Hi Hj Hne (f & [Hff Hfp] & [_ Hfq]).
  destruct (pdf_post _ _ _ _ _ _ _ _ _ _ _ Hho Him Hls Hg Hi) as (k & s & g & m & b & t & -> & Htk & Hgk & Hmk & Hb & Hbt & Hmax & Hpart & Htag).
  destruct (pdf_post _ _ _ _ _ _ _ _ _ _ _ Hho Him Hls Hg Hj) as (k' & s' & g' & m' & b' & t' & -> & Htk' & Hgk' & Hmk' & Hb' & Hbt' & Hmax' & _ & Htag').
  apply Htag, elem_of_app in Hfp as [Hfp|Hfp]; [by apply extra_not_fp in Hfp|]. apply elem_of_list_singleton in Hfp as ->.
  apply Htag', elem_of_app in Hfq as [Hfq|Hfq]; [by apply extra_not_fp in Hfq|]. apply elem_of_list_singleton in Hfq.
  apply pdf_legacy_inj in Hfq as [_ E0]; [|done|done].
  pose proof Hb as (es & bs & [R1 R2 _ _] & Hc & _ & Hdesc & _)%builds_reads. pose proof Hb' as (es' & bs' & [R1' R2' _ _] & Hc' & _ & Hdesc' & _)%builds_reads.
  pose proof (pick_posting _ _ _ _ s m Hbt Hc) as Hm1. pose proof (pick_posting _ _ _ _ s' m' Hbt' Hc') as Hm2.
  match type of E0 with sha1 ?x = sha1 ?y => destruct (decide (x = y)) as [Em|Em] end.
  - exfalso.
    assert (tb_description b = t_description t ∧ tb_description b' = t_description t') as [Ed Ed'].
    { apply build_trn_shape in Hbt as (_ & _ & ? & ? & -> & _). apply build_trn_shape in Hbt' as (_ & _ & ? & ? & -> & _). done. }
    assert (∀ g b, g ∈ gs → tl_date g.1 = Some (tb_date b) → date_ok (tb_date b)) as Hdok.
    { intros g0 b0 Hg0 Hd0. apply line_date_date. eapply statement_date; [exact Hls| |exact Hd0]. by eapply group_line. }
    apply half_message_inj in Em as (E1 & E2 & E3 & E4).
    + assert (k = k') as ->.
      { eapply (sequence_inj gs k k' g g' m); [done|done|done|congruence|done|]. rewrite Hmk'. f_equal. lia. }
      destruct Hne. f_equal. f_equal. apply (f_equal aa_account) in E4. destruct s, s'; [done|..|done]; cbn in E4; by destruct (d_neg _).
    + exact (Hdok g b (elem_of_list_lookup_2 _ _ _ Hgk) R1).
    + exact (Hdok g' b' (elem_of_list_lookup_2 _ _ _ Hgk') R1').
    + rewrite Hc. unfold i32_ok, I32_MAX in *. lia.
    + rewrite Hc'. unfold i32_ok, I32_MAX in *. lia.
    + rewrite Ed. apply Hd. by eapply elem_of_list_lookup_2.
    + rewrite Ed'. apply Hd. by eapply elem_of_list_lookup_2.
    + apply halves_ok. by eapply group_amount_ok.
    + apply halves_ok. by eapply group_amount_ok.
    + apply halves_ok. by eapply group_amount_ok.
    + apply halves_ok. by eapply group_amount_ok.
  - exists k, k', t, t', m, m'. eexists _, _. split; [done|]. split; [done|]. split; [done|]. split; [done|]. split; [exact Hm1|]. split; [exact Hm2|]. by split.
Qed.
(** Numbers of transactions of one date. *)
Lemma c76_numbers E ho o doc ns ts ls skip (gs : list group) i j t t' n n' : pdf_import E ho o doc = Ok (ns, ts) → statement_lines E doc ls → grouped ls skip gs →
  together (tl_date <$> (gs ≫= group_lines)) → ts !! i = Some t → ts !! j = Some t' → t_date t = t_date t' →
  sequence None 0 gs !! i = Some n → sequence None 0 gs !! j = Some n' → i < j → n < n'.
Proof.
  intros Him Hls Hg Ht Hi Hj Hd Hn Hn' Hij. pose proof (c66_groups _ _ _ _ _ _ _ _ _ Him Hls Hg) as HF.
  destruct (Forall2_lookup_r _ _ _ _ _ HF Hi) as (g & Hgi & d & a & es & bs & ? & ? & ? & ? & [R _ _ _] & Ed & _).
  destruct (Forall2_lookup_r _ _ _ _ _ HF Hj) as (g' & Hgj & d' & a' & es' & bs' & ? & ? & ? & ? & [R' _ _ _] & Ed' & _).
  eapply (sequence_lt gs i j g g' n n' None 0); [done|done|done|done|congruence|done|done].
Qed.
Lemma pdf_mergeable E ho o doc ns ts p : hash_order_ok ho → pdf_import E ho o doc = Ok (ns, ts) → p ∈ all_posts (as_merged ts) → mergeable p.
Proof.
  intros Hho Him (n & Hn)%elem_of_list_lookup. pose proof Him as (name & ls & skip & gs & _ & _ & Hls & Hg & _)%c66_only.
  destruct (pdf_post _ _ _ _ _ _ _ _ _ _ _ Hho Him Hls Hg Hn) as (k & s & g & m & b & t & _ & _ & _ & _ & _ & _ & _ & Hpart & Ht).
  pose proof (good_is_fp _ (pdf_fp_good ns b s Hpart)) as [H1 H2]. split.
  - exists (pdf_fp ns b s). split; [done|]. apply Ht, elem_of_app. right. by apply elem_of_list_singleton.
  - intros x [Hx|Hx]%Ht%elem_of_app; [by apply extra_not_candidate in Hx|]. apply elem_of_list_singleton in Hx as ->. done.
Qed.
Lemma pdf_transaction E ho o doc ns ts t : pdf_import E ho o doc = Ok (ns, ts) → t ∈ ts → ∃ E n g b, builds E n g b ∧ build_trn ho ns b = Ok t.
Proof.
  intros (name & ls & skip & gs & _ & _ & _ & _ & Hgv)%import_lines (k & Hk)%elem_of_list_lookup. apply gives_lookup in Hgv as [_ H].
  destruct (H k t Hk) as (g & m & b & _ & _ & H1 & H2 & _). exists E, m, g, b. done.
Qed.
Lemma pdf_merges E ho o doc ns ts ls skip gs ho1 ho2 : hash_order_ok ho → hash_order_ok ho1 → hash_order_ok ho2 → env_ok E →
  (∀ t, t ∈ ts → str_ok (t_description t)) → pdf_import E ho o doc = Ok (ns, ts) → statement_lines E doc ls → grouped ls skip gs →
  together (tl_date <$> (gs ≫= group_lines)) → ¬ pdf_collides ts (sequence None 0 gs) →
  ∃ m, merge ho1 merger_new (as_merged ts) = (m, Ok []) ∧ build ho2 m = Ok (stable_sort (by_key tp_date) (as_merged ts)).
Proof.
  intros Hho H1 H2 HE Hd Him Hls Hg Ht Hcol.
  assert (∀ tp, tp ∈ as_merged ts → tp_posts tp ≠ []) as Hne.
  { intros tp (t & -> & Htt)%elem_of_list_fmap. destruct (pdf_transaction _ _ _ _ _ _ _ Him Htt) as (? & ? & ? & b & _ & Hb).
    apply build_trn_shape in Hb as (_ & _ & ? & ? & -> & _). done. }
  destruct (from_empty ho1 ho2 (as_merged ts) H1 H2) as (m & Hm & Hb).
  - intros p Hp. by apply (pdf_mergeable E ho o doc ns ts).
  - intros i j p q Hi Hj Hsh. destruct (decide (i = j)) as [|Hij]; [done|]. destruct Hcol. by apply (c76 E ho o doc ns ts ls skip gs i j p q).
  - exists m. split.
    + rewrite Hm. f_equal. f_equal.
      destruct (filter _ _) as [|x l] eqn:Ef; [done|]. assert (x ∈ x :: l) as Hx by left. rewrite <- Ef in Hx.
      apply elem_of_list_filter in Hx as [Hx1 Hx2]. by destruct (Hne x).
    + rewrite Hb. f_equal. f_equal. apply filter_all. done.
Qed.
Lemma pdf_balanced E ho o doc ns ts t : pdf_import E ho o doc = Ok (ns, ts) → t ∈ ts → balanced t.
Proof.
  intros Him Ht. destruct (pdf_transaction _ _ _ _ _ _ _ Him Ht) as (? & ? & ? & b & _ & Hb).
  apply build_trn_shape in Hb as (_ & _ & ? & ? & -> & _).
  eapply two_balanced; [reflexivity|reflexivity|reflexivity|apply negate_opposite].
Qed.
Lemma pdf_sides E ho o doc ns ts t : hash_order_ok ho → pdf_import E ho o doc = Ok (ns, ts) → t ∈ ts →
  ∃ own peer, t_postings t = [own; peer] ∧ sides own peer ∧ fingerprinted own ∧ fingerprinted peer.
Proof.
  intros Hho Him Ht. destruct (pdf_transaction _ _ _ _ _ _ _ Him Ht) as (? & ? & ? & b & _ & Hb).
  apply build_trn_shape in Hb as (Hn & _ & c1 & c2 & -> & M1 & M2).
  pose proof (λ s, proj1 (good_is_fp _ (pdf_fp_good ns b s Hn))) as Hfp.
  eexists _, _. split; [reflexivity|]. split; [|split].
  - exists (own_amount b), (negate_amount (own_amount b)). eexists.
    split; [by split|]. split; [by split|]. split; [apply negate_opposite|]. split; [apply peer_account_ok|]. split.
    + eapply made_posting; [done|exact M1|]. apply elem_of_app. left. right. left.
    + eapply made_posting; [done|exact M2|]. apply elem_of_app. left. right. left.
  - exists (pdf_fp ns b Self). split; [apply Hfp|]. eapply (made_posting _ _ _ _ _ _ _ _ (pdf_fp ns b Self)); [done|exact M1|]. apply elem_of_app. right. left.
  - exists (pdf_fp ns b Peer). split; [apply Hfp|]. eapply (made_posting _ _ _ _ _ _ _ _ (pdf_fp ns b Peer)); [done|exact M2|]. apply elem_of_app. right. left.
Qed.

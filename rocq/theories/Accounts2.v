(** Several bank accounts in one journal (C132), continued. *)
From Verif Require Import MergeClaims.
From stdpp Require Import gmap list.
From Verif Require Import Base Types SpecBase BaseProofs CommentModel MergeModel CmdModel FingerprintModel NwCsvModel TzModel PaypalModel OcrModel PdfModel
  FingerprintClaims ImportClaims EditClaims WindowClaims StatementClaims PdfClaims PdfDaysClaims NsUseClaims CmdClaims
  RulesModel RulesClaims RulesProofs RulesEdit PipeClaims AssertClaims FingerprintProofs ImportProofs ImportRows ImportLaws ImportPaypal PdfFold PdfLaws MergeLemmas MergeEdit MergeDays ImportDays PaypalDays PdfDays
  MergeReplay CmdProofs HeaderClaims NsUse Pipe Assert Assert2 AccountsClaims Accounts.
From Coq Require Import Lia QArith.
Local Open Scope nat_scope.

(** * Namespaces *)
Lemma dash_split (x y h h' : str) : 45%N ∉ h → 45%N ∉ h' → x ++ s2l "-" ++ h = y ++ s2l "-" ++ h' → x = y.
Proof.
  intros Hh Hh'. change (s2l "-") with [45%N]. revert y. induction x as [|c x IH]; intros y E.
  - destruct y as [|d y]; [done|]. cbn in E. injection E as <- ->. destruct Hh. apply elem_of_app. right. left.
  - destruct y as [|d y]; cbn in E.
    + injection E as -> <-. destruct Hh'. apply elem_of_app. right. left.
    + injection E as -> E. f_equal. by apply IH.
Qed.
Lemma dot_split (x y h h' : str) : 46%N ∉ h → 46%N ∉ h' → x ++ [46%N] ++ h = y ++ [46%N] ++ h' → h = h'.
Proof.
  intros Hh Hh'. revert y. induction x as [|c x IH]; intros y E.
  - destruct y as [|d y]; cbn in E; [by injection E as ->|]. injection E as <- ->. destruct Hh. apply elem_of_app. right. left.
  - destruct y as [|d y]; cbn in E.
    + injection E as -> <-. destruct Hh'. apply elem_of_app. right. left.
    + injection E as -> E. by apply (IH y).
Qed.
Lemma part_no_dot ns : fp_part ns → 46%N ∉ ns.
Proof. intros H Hin%H. revert Hin. by_compute. Qed.
Lemma namespace_fun ns ns' f : fp_part ns → fp_part ns' → in_namespace ns f → in_namespace ns' f → ns = ns'.
Proof.
  intros H%part_no_dot H'%part_no_dot (b & h & -> & Hh & Hb) (b' & h' & E & Hh' & Hb').
  apply app_inv_head in E. rewrite !(assoc_L (++) b), !(assoc_L (++) b') in E. apply dash_split in E; [|done..].
  assert (∀ kind x, (kind ++ s2l ".1.") ++ x = (kind ++ s2l ".1") ++ [46%N] ++ x) as Ek by (intros; by rewrite <- !(assoc_L (++))).
  destruct Hb as [->|[k ->]], Hb' as [->|[k' ->]]; rewrite ?Ek in E.
  - exact E.
  - cbn [app] in E. destruct H. rewrite E. apply elem_of_app. right. left.
  - cbn [app] in E. destruct H'. rewrite <- E. apply elem_of_app. right. left.
  - by eapply dot_split.
Qed.
Lemma chosen_fun o name ns ns' : chosen o name ns → chosen o name ns' → ns = ns'.
Proof. rewrite <- !chosen_iff. intros H H'. rewrite H in H'. by apply Ok_inj in H'. Qed.
Lemma statement_namespace a ns w ts p f : by_day a → account_namespace a ns → statement_of a w ts →
  p ∈ all_posts (as_merged ts) → has_fp p f → fp_part ns ∧ in_namespace ns f.
Proof.
  destruct a as [pd o name rows|tz db ns0 groups|P o name ds parts]; cbn [by_day account_namespace statement_of].
  - intros [Hpd _] Hc (_ & ho & records & ns1 & Hho & Hf & Hs & Hi) Hin [Hft Hp]. apply elem_of_list_lookup in Hin as [n Hn].
    pose proof Hi as (name' & rs & Hs' & Hns & _)%import_reads. destruct (statement_fun _ _ _ _ _ _ Hs Hs') as [<- _].
    apply chosen_iff in Hns. rewrite (chosen_fun _ _ _ _ Hc Hns) in *.
    destruct (import_post _ _ _ _ _ _ _ _ _ _ Hho Hpd Hf Hi Hs Hn) as (k & s & r & a & _ & _ & _ & _ & _ & Hpart & Ht). cbv zeta in Ht.
    split; [done|]. apply (proj1 (Ht f)) in Hp. apply elem_of_app in Hp as [Hp|Hp]; [by apply extra_not_fp in Hp|].
    destruct r as [r|r]; cbn [row_fps] in Hp.
    + apply elem_of_list_singleton in Hp as ->. apply tag_in.
    + apply elem_of_app in Hp as [Hp| ->%elem_of_list_singleton]; [|apply tag_in].
      destruct (nw_legacy o); [|by apply elem_of_nil in Hp]. apply elem_of_list_singleton in Hp as ->. apply legacy_in.
  - intros _ -> (_ & ho & rows & Hho & Hok & Hr & Hi) Hin Hf. unfold all_posts, as_merged in Hin.
    apply elem_of_list_bind in Hin as (tp & Hp & (t & -> & Hit)%elem_of_list_fmap). unfold transaction_postings_of in Hp. cbn [tp_posts] in Hp.
    apply elem_of_list_fmap in Hp as (p0 & -> & Hip). apply elem_of_list_lookup in Hit as [k Hk], Hip as [n Hn].
    destruct (pp_post_fps _ _ _ _ _ _ _ _ _ _ _ _ Hho Hok Hi Hr Hk Hn) as (ti & g & i & s & v & _ & _ & _ & _ & Hpart & _ & Hfp).
    split; [done|]. apply Hfp in Hf. unfold pp_fps in Hf. apply elem_of_app in Hf as [Hf|Hf].
    + destruct s; [apply elem_of_list_singleton in Hf as ->; apply tag_in|by apply elem_of_nil in Hf].
    + apply elem_of_list_singleton in Hf as ->. apply legacy_in.
  - intros _ Hc (_ & ho & doc & ns1 & ls & skip & gs & Hho & Hn & Hls & Hg & _ & Hi) Hin [Hft Hpf]. apply elem_of_list_lookup in Hin as [n Hp].
    pose proof Hi as (name' & _ & _ & _ & Hn' & Hns & _)%c66_only.
    assert (name' = name) as -> by (by eapply account_fun). apply chosen_iff in Hns. rewrite (chosen_fun _ _ _ _ Hc Hns) in *.
    destruct (pdf_post _ _ _ _ _ _ _ _ _ _ _ Hho Hi Hls Hg Hp) as (k & s & g & m & b & t & _ & _ & _ & _ & _ & _ & _ & Hpart & Ht).
    split; [done|]. apply (proj1 (Ht f)) in Hpf. apply elem_of_app in Hpf as [Hpf| ->%elem_of_list_singleton]; [by apply extra_not_fp in Hpf|]. apply legacy_in.
Qed.

(** * Days of an account *)
Lemma account_pieces h ws tss : history_ok h → Forall2 (statement_of (h_account h)) ws tss → covers ws (h_days h) →
  ∃ f, as_merged (h_all h) = h_days h ≫= f ∧ as_merged <$> tss = (λ w, w ≫= f) <$> ws ∧ journal_ok (h_days h ≫= f) ∧
    (∀ i k a b, i ∈ h_days h → k ∈ h_days h → a ∈ f i → b ∈ f k → tp_date a = tp_date b ↔ i = k) ∧ Forall NoDup ws.
Proof.
  destruct h as [a ns R seen ts]. intros [Hd Hns HR Hall Hap]. cbn [h_account h_namespace h_rules h_days h_all] in *.
  destruct a as [pd o name rows|tz db ns0 groups|P o name ds parts]; cbn [by_day statement_of no_collision] in *; intros Hws Hcov.
  - destruct Hd. by apply (nw_pieces pd o name rows ws tss seen ts).
  - destruct Hap. by apply (pp_pieces tz db ns0 groups ws tss seen ts).
  - destruct Hap, Hd. by apply (pdf_pieces P o name ds parts ws tss seen ts).
Qed.
Lemma treated_pieces R (f : nat → list transaction_postings) seen ws Js :
  rules_fit R → journal_ok (seen ≫= f) →
  (∀ i k a b, i ∈ seen → k ∈ seen → a ∈ f i → b ∈ f k → tp_date a = tp_date b ↔ i = k) →
  covers ws seen → Forall2 (treated R) ((λ w, w ≫= f) <$> ws) Js →
  ∃ g, treated R (seen ≫= f) (seen ≫= g) ∧ Js = (λ w, w ≫= g) <$> ws ∧ journal_ok (seen ≫= g) ∧
    ∀ i k a b, i ∈ seen → k ∈ seen → a ∈ g i → b ∈ g k → tp_date a = tp_date b ↔ i = k.
Proof.
  intros HR Hok Hd Hcov HJ. destruct R as [[X T]|]; cbn [rules_fit treated] in *.
  2:{ exists f. split; [done|]. split; [|done]. clear -HJ. revert Js HJ. induction ws as [|w ws IH]; intros Js HJ; rewrite ?fmap_cons in HJ;
      inversion HJ as [|? J ? Js' H1 H2]; subst; [done|]. rewrite fmap_cons. f_equal; [exact H1|]. by apply IH. }
  destruct HR as [Hs HT].
  assert (∀ k, k ∈ seen → ∃ K, ruled X T (f k) K) as Hall.
  { intros k Hk. destruct Hcov as [_ Hcov]. apply Hcov in Hk as (w & Hw & Hk).
    assert (w ≫= f ∈ (λ w, w ≫= f) <$> ws) as [i Hi]%elem_of_list_lookup by (apply elem_of_list_fmap; eauto).
    destruct (Forall2_lookup_l _ _ _ _ _ HJ Hi) as (J & _ & H). by eapply ruled_part. }
  destruct (Pipe.pick _ [] seen Hall) as [g Hg]. assert (Hwhole := ruled_bind X T f g seen Hg). exists g.
  split; [done|]. split; [|split].
  - assert (∀ w, w ∈ ws → ∀ k, k ∈ w → k ∈ seen) as Hsub by (intros w Hw k Hk; apply Hcov; eauto). clear -HJ Hg Hsub.
    revert Js HJ. induction ws as [|w ws IH]; intros Js HJ; rewrite ?fmap_cons in HJ; inversion HJ as [|? J ? Js' H1 H2]; subst; [done|]. rewrite fmap_cons. f_equal.
    + eapply ruled_det; [exact H1|]. apply ruled_bind. intros k Hk. apply Hg. eapply Hsub; [left|done].
    + apply IH; [|done]. intros w' Hw'. apply Hsub. by right.
  - eapply rules_journal_ok; [done|by eapply ruled_changes|done].
  - assert (∀ k b, k ∈ seen → b ∈ g k → ∃ a, a ∈ f k ∧ tp_date a = tp_date b) as Hdate.
    { intros k b Hk [i Hi]%elem_of_list_lookup. pose proof (ruled_kept X T _ _ Hs (Hg k Hk)) as HF.
      destruct (Forall2_lookup_r _ _ _ _ _ HF Hi) as (a & Ha & Hka & _). exists a. split; [by eapply elem_of_list_lookup_2|].
      symmetry. apply (tk_date _ _ Hka). }
    intros i k a b Hi Hk Ha Hb. destruct (Hdate i a Hi Ha) as (a' & Ha' & <-), (Hdate k b Hk Hb) as (b' & Hb' & <-). by apply Hd.
Qed.
Lemma treated_fps R tps J p f : rules_fit R → treated R tps J → p ∈ all_posts J → has_fp p f → ∃ q, q ∈ all_posts tps ∧ has_fp q f.
Proof.
  destruct R as [[X T]|]; cbn [rules_fit treated]; [|intros _ ->; eauto]. intros [Hs HT] HJ [i Hi]%elem_of_list_lookup Hf.
  pose proof (Forall2_all_posts T _ _ (ruled_changes X T _ _ Hs HJ)) as HF.
  destruct (Forall2_lookup_r _ _ _ _ _ HF Hi) as (q & Hq & Hc). exists q. split; [by eapply elem_of_list_lookup_2|]. by apply (changes_fp T q p).
Qed.

Lemma with_statements hs (xs : list input) n h : Forall (input_of hs) xs → (∀ x, x ∈ xs → in_account x = n) → hs !! n = Some h →
  ∃ tss, Forall2 (statement_of (h_account h)) (in_days <$> xs) tss ∧ Forall2 (treated (h_rules h)) (as_merged <$> tss) (in_trns <$> xs).
Proof.
  intros H Hn Hh. induction H as [|x xs (h' & ts & Hh' & Hs & Ht) H IH].
  - exists []. split; constructor.
  - destruct IH as (tss & H1 & H2). { intros; apply Hn. by right. }
    rewrite (Hn x) in Hh' by left. rewrite Hh in Hh'. injection Hh' as <-. exists (ts :: tss). rewrite !fmap_cons. split; by constructor.
Qed.
(** What an account brings to the journal. *)
Record brings (inputs : list input) (n : nat) (h : history) (g : nat → list transaction_postings) : Prop := {
  br_treated : own_journal h (h_days h ≫= g);
  br_inputs : ∀ x, x ∈ inputs → in_account x = n → in_trns x = in_days x ≫= g ∧ NoDup (in_days x);
  br_ok : journal_ok (h_days h ≫= g);
  br_days : ∀ i k a b, i ∈ h_days h → k ∈ h_days h → a ∈ g i → b ∈ g k → tp_date a = tp_date b ↔ i = k;
  br_ns : ∀ p f, p ∈ all_posts (h_days h ≫= g) → has_fp p f → fp_part (h_namespace h) ∧ in_namespace (h_namespace h) f;
}.
Lemma account_brings hs inputs n h : Forall (input_of hs) inputs → hs !! n = Some h → history_ok h →
  covers (statements inputs n) (h_days h) → ∃ g, brings inputs n h g.
Proof.
  intros Hin Hh Hok Hcov. unfold statements in Hcov. pose proof (ho_rules h Hok) as HR. set (R := h_rules h) in *.
  destruct (with_statements hs (filter (λ x, in_account x = n) inputs) n h) as (tss & H1 & H2); [|by intros x [? _]%elem_of_list_filter|done|].
  { apply Forall_forall. intros x [_ Hx]%elem_of_list_filter. by eapply Forall_forall in Hin. }
  destruct (account_pieces h _ tss Hok H1 Hcov) as (f & Ef & Es & Hj & Hd & Hnd). rewrite Es in H2.
  destruct (treated_pieces R f (h_days h) _ _ HR Hj Hd Hcov H2) as (g & Ht & Ej & Hj' & Hd'). exists g.
  assert (own_journal h (h_days h ≫= g)) as Ht' by (unfold own_journal; by rewrite Ef).
  split; [done| |done|done|].
  - intros x Hx Hn. assert (x ∈ filter (λ x, in_account x = n) inputs) as [i Hi]%elem_of_list_lookup by (by apply elem_of_list_filter).
    rewrite <- list_fmap_compose in Ej. apply (f_equal (.!! i)) in Ej. rewrite !list_lookup_fmap, Hi in Ej. cbn in Ej. injection Ej as Ej. split; [done|].
    apply (proj1 (Forall_forall _ _) Hnd). apply elem_of_list_fmap_1. by eapply elem_of_list_lookup_2.
  - intros p f0 Hp Hf. destruct (treated_fps R _ _ p f0 HR Ht' Hp Hf) as (q & Hq & Hf'). destruct Hok. by eapply statement_namespace.
Qed.

Lemma c132 hs inputs hos : Forall history_ok hs → NoDup (h_namespace <$> hs) →
  Forall (input_of hs) inputs → (∀ n h, hs !! n = Some h → covers (statements inputs n) (h_days h)) → not_alike inputs →
  length hos = length inputs → Forall hash_order_ok hos →
  ∃ Js m out, Forall2 own_journal hs Js ∧ clean_run merger_new (zip hos (in_trns <$> inputs)) m ∧
    (∀ ho, hash_order_ok ho → build ho m = Ok out) ∧ all_in Js out.
Proof.
  intros Hhs Hnd Hin Hcov Hap Hlen Hhos.
  assert (∀ n, n ∈ seq 0 (length hs) → ∃ g, ∃ h, hs !! n = Some h ∧ brings inputs n h g) as Hall.
  { intros n [_ Hn]%elem_of_seq. cbn in Hn. apply lookup_lt_is_Some in Hn as [h Hh].
    destruct (account_brings hs inputs n h) as [g Hg]; [done..| |by apply Hcov|by exists g, h]. by eapply Forall_lookup_1. }
  destruct (Pipe.pick _ (λ _, []) _ Hall) as [G HG]. clear Hall.
  set (S := λ n, match hs !! n with Some h => h_days h | None => [] end).
  assert (∀ n, n < length hs → ∃ h, hs !! n = Some h ∧ S n = h_days h ∧ brings inputs n h (G n)) as HG'.
  { intros n Hn. destruct (HG n) as (h & Hh & Hb); [apply elem_of_seq; lia|]. exists h. unfold S. by rewrite Hh. }
  assert (∀ x, x ∈ inputs → in_account x < length hs) as Hlt.
  { intros x Hx. destruct (proj1 (Forall_forall _ _) Hin x Hx) as (h & ts & Hh & _). by eapply lookup_lt_Some. }
  assert (∀ n k a, n < length hs → k ∈ S n → a ∈ G n k → ∃ x, x ∈ inputs ∧ in_account x = n ∧ a ∈ in_trns x) as Hfrom.
  { intros n k a Hn Hk Ha. destruct (HG' n Hn) as (h & Hh & ES & Hb). rewrite ES in Hk. apply (Hcov n h Hh) in Hk as (w & Hw & Hk).
    unfold statements in Hw. apply elem_of_list_fmap in Hw as (x & -> & [Hx1 Hx2]%elem_of_list_filter).
    exists x. split; [done|]. split; [done|]. destruct Hb as [_ Hbi _ _ _]. destruct (Hbi x Hx2 Hx1) as [-> _]. apply elem_of_list_bind. eauto. }
  destruct (numbered_merge (length hs) G S ((λ x, (in_account x, in_days x)) <$> inputs) hos) as (m & out & Hrun & Hb & Hout).
  - intros n Hn. destruct (HG' n Hn) as (h & _ & -> & Hb). apply Hb.
  - intros n n' p q Hn Hn' Hne Hp Hq (f & Hf & Hf'). destruct (HG' n Hn) as (h & Hh & E & Hb), (HG' n' Hn') as (h' & Hh' & E' & Hb').
    rewrite E in Hp. rewrite E' in Hq. destruct (br_ns _ _ _ _ Hb p f Hp Hf) as [P1 P2], (br_ns _ _ _ _ Hb' q f Hq Hf') as [Q1 Q2].
    pose proof (namespace_fun _ _ f P1 Q1 P2 Q2) as En. apply Hne. eapply (NoDup_lookup _ n n' (h_namespace h) Hnd); rewrite list_lookup_fmap; [by rewrite Hh|by rewrite Hh', En].
  - intros n i k a b Hn. destruct (HG' n Hn) as (h & _ & -> & Hb). apply Hb.
  - intros n n' i k a b p q Hn Hn' Hne Hi Hk Ha Hb Hp Hq Hdt. destruct (Hfrom n i a Hn Hi Ha) as (x & Hx & <- & Hax), (Hfrom n' k b Hn' Hk Hb) as (y & Hy & <- & Hby).
    by apply (Hap x y a b).
  - intros x (y & -> & Hy)%elem_of_list_fmap. cbn [fst snd]. split; [by apply Hlt|]. destruct (HG' _ (Hlt y Hy)) as (h & _ & _ & Hb). by apply (br_inputs _ _ _ _ Hb).
  - intros n Hn. destruct (HG' n Hn) as (h & Hh & -> & _). replace (snd <$> filter (λ x, x.1 = n) ((λ x, (in_account x, in_days x)) <$> inputs)) with (statements inputs n); [by apply Hcov|].
    unfold statements. clear. induction inputs as [|x l IH]; [done|]. rewrite fmap_cons, !filter_cons. cbn [fst]. destruct (decide (in_account x = n)); [|done]. rewrite !fmap_cons. by f_equal.
  - by rewrite fmap_length.
  - done.
  - exists ((λ n, S n ≫= G n) <$> seq 0 (length hs)), m, out. split; [|split; [|done]].
    + apply Forall2_same_length_lookup. split; [by rewrite fmap_length, seq_length|]. intros n h J Hh HJ.
      rewrite list_lookup_fmap in HJ. destruct (seq 0 (length hs) !! n) as [n'|] eqn:En; [|done]. apply lookup_seq in En as [-> Hn].
      cbn in HJ. injection HJ as <-. destruct (HG' n Hn) as (h' & Hh' & E & Hbr). rewrite Hh in Hh'. injection Hh' as <-. rewrite E. apply Hbr.
    + assert ((λ x : nat * list nat, x.2 ≫= G x.1) <$> ((λ x, (in_account x, in_days x)) <$> inputs) = in_trns <$> inputs) as <-; [|done].
      rewrite <- list_fmap_compose. apply fmap_cond. intros x Hx. unfold compose. cbn [fst snd]. destruct (HG' _ (Hlt x Hx)) as (h & _ & _ & Hbr).
      by destruct (br_inputs _ _ _ _ Hbr x Hx eq_refl) as [-> _].
Qed.

(** * Balances *)
Lemma on_account_twice A ps : on_account A (on_account A ps) = on_account A ps.
Proof. unfold on_account. apply filter_all. by intros p [? _]%elem_of_list_filter. Qed.
Lemma assertions_on A start ps qs : on_account A ps = on_account A qs → assertions_hold A start ps → assertions_hold A start qs.
Proof.
  intros E H before p after b Eq HA Hb. rewrite Eq in E. unfold on_account in E. rewrite filter_app, filter_cons_True in E by done.
  revert E. generalize (filter (λ p, p_account (pi_raw p) = A) after) as r. intros r E.
  assert (∃ bf af, ps = bf ++ p :: af ∧ on_account A bf = on_account A before) as (bf & af & -> & Eb).
  { revert E. unfold on_account. generalize (filter (λ p, p_account (pi_raw p) = A) before) as l. clear. induction ps as [|x ps IH]; intros l E; [by destruct l|].
    rewrite filter_cons in E. destruct (decide (p_account (pi_raw x) = A)) as [Ex|Ex].
    - destruct l as [|y l]; cbn in E.
      + injection E as -> E. exists [], ps. done.
      + injection E as -> E. destruct (IH l E) as (bf & af & -> & <-). exists (y :: bf), af. split; [done|]. by rewrite filter_cons_True.
    - destruct (IH l E) as (bf & af & -> & <-). exists (x :: bf), af. split; [done|]. by rewrite filter_cons_False. }
  assert (on_account A (before ++ [p]) = on_account A (bf ++ [p])) as ->.
  { unfold on_account in *. rewrite !filter_app. by rewrite Eb. }
  by apply (H bf p af b).
Qed.
Lemma deleted_lookup {A} (l : list A) n i x : delete n l !! i = Some x → ∃ i', i' ≠ n ∧ l !! i' = Some x.
Proof.
  revert n i. induction l as [|y l IH]; intros n i H; [done|]. destruct n as [|n]; [by exists (Datatypes.S i)|].
  destruct i as [|i]; cbn in H; [by exists 0|]. destruct (IH n i H) as (i' & Hne & Hi). exists (Datatypes.S i'). split; [lia|done].
Qed.
Lemma all_in_account A Js out n J : all_in Js out → Js !! n = Some J →
  (∀ i K p, i ≠ n → Js !! i = Some K → p ∈ all_posts K → p_account (pi_raw p) ≠ A) →
  on_account A (all_posts (stable_sort (by_key tp_date) J)) = on_account A (all_posts out).
Proof.
  intros [Hp _ He] HJ Hother. apply sublist_same_length.
  - apply filter_sub, bind_sublist. apply He. by eapply elem_of_list_lookup_2.
  - unfold on_account. rewrite (all_posts_perm _ _ Hp), (all_posts_perm _ _ (mjoin_perm Js n J HJ)), all_posts_app.
    rewrite (all_posts_perm _ _ (stable_sort_perm _ J)). rewrite filter_app, app_length.
    rewrite (filter_none _ (all_posts (mjoin (delete n Js)))); [cbn; lia|].
    intros p Hpin. unfold all_posts in Hpin. apply elem_of_list_bind in Hpin as (tp & Hpin & Htp).
    apply elem_of_list_join in Htp as (K & Htp & [i Hi]%elem_of_list_lookup).
    assert (∃ i', i' ≠ n ∧ Js !! i' = Some K) as (i' & Hne & HK).
    { by eapply deleted_lookup. }
    apply (Hother i' K p Hne HK). by eapply elem_all_posts.
Qed.
Lemma posting_kept_refl p : posting_kept p p.
Proof. by split. Qed.
Lemma treated_kept R tps J : rules_fit R → treated R tps J → Forall2 tp_kept tps J.
Proof.
  destruct R as [[X T]|]; cbn [rules_fit treated].
  - intros [Hs _] H. by eapply ruled_kept.
  - intros _ ->. apply Forall_Forall2_diag, Forall_true. intros tp. split; [by split|]. apply Forall_Forall2_diag, Forall_true. apply posting_kept_refl.
Qed.
Lemma account_asserts R a w ts A J es start : rules_fit R → statement_of a w ts → bank_says a w es → adds_up start es →
  treated R (as_merged ts) J → puts_on A (as_merged ts) J → assertions_hold A start (all_posts (stable_sort (by_key tp_date) J)).
Proof.
  intros HR Hst Hsay Ha HJ HA. apply treated_kept in HJ; [|done].
  destruct a as [pd o name rows|tz db ns groups|P o name ds parts]; cbn [statement_of bank_says] in *.
  - destruct Hst as (_ & ho & records & ns & _ & _ & Hs & Hi).
    apply (sorted_assert rec_date nw_says _ _ _ _ _ (booked_ruled _ _ _ _ _ _ HJ HA (nw_booked _ _ _ _ _ _ _ _ Hi Hs)) (singles _ _ _ Hsay)).
    by rewrite mjoin_singles.
  - subst es. destruct Hst as (_ & ho & rows & Hho & _ & Hr & Hi).
    apply (sorted_assert (λ g, tz g.1) pp_says _ _ _ _ _ (booked_ruled _ _ _ _ _ _ HJ HA (pp_booked _ _ _ _ _ _ _ _ Hho Hi Hr)) (pp_said _)).
    by rewrite pp_entries.
  - destruct Hst as (_ & ho & doc & ns & ls & skip & gs & _ & _ & Hl & Hg & Hw & Hi). rewrite <- Hw in Hsay.
    apply (sorted_assert group_date (pdf_says P) _ _ _ _ _ (booked_ruled _ _ _ _ _ _ HJ HA (pdf_booked _ _ _ _ _ _ _ _ _ Hi Hl Hg)) (singles _ _ _ Hsay)).
    by rewrite mjoin_singles.
Qed.
Lemma c132_balances hs inputs hos n h A es start : Forall history_ok hs → NoDup (h_namespace <$> hs) →
  Forall (input_of hs) inputs → (∀ n h, hs !! n = Some h → covers (statements inputs n) (h_days h)) → not_alike inputs →
  length hos = length inputs → Forall hash_order_ok hos →
  hs !! n = Some h → bank_says (h_account h) (h_days h) es → adds_up start es →
  (∀ J, own_journal h J → puts_on A (as_merged (h_all h)) J) →
  (∀ i h' J p, i ≠ n → hs !! i = Some h' → own_journal h' J → p ∈ all_posts J → p_account (pi_raw p) ≠ A) →
  ∃ m out, clean_run merger_new (zip hos (in_trns <$> inputs)) m ∧ (∀ ho, hash_order_ok ho → build ho m = Ok out) ∧
    assertions_hold A start (all_posts out).
Proof.
  intros Hhs Hnd Hin Hcov Hap Hlen Hhos Hh Hsay Ha HA Hother.
  destruct (c132 hs inputs hos) as (Js & m & out & HJs & Hrun & Hb & Hout); [done..|]. exists m, out. split; [done|]. split; [done|].
  destruct (Forall2_lookup_l _ _ _ _ _ HJs Hh) as (J & HJ & Hown).
  destruct (Forall_lookup_1 _ _ _ _ Hhs Hh) as [_ _ HR Hall _].
  eapply assertions_on; [|exact (account_asserts (h_rules h) _ _ _ A J es start HR Hall Hsay Ha Hown (HA J Hown))].
  apply (all_in_account A Js out n J Hout HJ). intros i K p Hne HK. destruct (Forall2_lookup_r _ _ _ _ _ HJs HK) as (h' & Hh' & Hown').
  by apply (Hother i h').
Qed.
Lemma c132_command E ho um output w files hs inputs : hash_order_ok ho → Forall history_ok hs → NoDup (h_namespace <$> hs) →
  Forall (input_of hs) inputs → (∀ n h, hs !! n = Some h → covers (statements inputs n) (h_days h)) → not_alike inputs →
  journals E w files (in_trns <$> inputs) w → (∀ f, um = Some f → writable E f) → writable E output →
  ∃ Js out es, Forall2 own_journal hs Js ∧ all_in Js out ∧ merge_cmd E ho files um output w = (es, Ok tt) ∧
    holds w (steps w es) output (e_print E (into_ledger ho out)) ∧ ∀ p, Path p ≠ output → same_file w (steps w es) p.
Proof.
  intros Hho Hhs Hnd Hin Hcov Hap Hj Hum Hout.
  destruct (c132 hs inputs (replicate (length (in_trns <$> inputs)) ho)) as (Js & m & out & HJs & Hrun & Hb & Ho); [done..| | |].
  { by rewrite replicate_length, fmap_length. } { by apply Forall_replicate. }
  destruct (merge_files E ho um output w files _ m out Hho Hj Hrun (Hb ho Hho) Hum Hout) as (es & H1 & H2 & H3). by exists Js, out, es.
Qed.

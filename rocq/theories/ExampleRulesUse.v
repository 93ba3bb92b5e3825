(** The rules of examples/rules.ron used: by the command, twice, and on imported
    statements. *)
From Verif Require Import MergeClaims.
From Coq Require Import QArith.
From stdpp Require Import gmap list relations.
From Verif Require Import Base Types CommentModel MergeModel CmdModel SpecBase BaseProofs FingerprintModel NwCsvModel CommentClaims FingerprintClaims CmdClaims CmdProofs CmdMerge ImportClaims ImportLaws DetailClaims ImportDetails EditClaims
  RulesModel RulesClaims RulesProofs RulesLaws RulesCmd ExampleRulesModel ExampleRulesClaims ExampleRules.
Local Open Scope nat_scope.


Lemma c122_rules F ho path : hash_order_ok ho → has_example_rules F path →
  ∃ T, leaves_fingerprints T ∧ start_and_jumps T ∧ (∀ n, 1 ≤ n → load_from_path F ho n path = Some (Ok T)) ∧
    ∀ X ho' n tps out, 5 ≤ n → update_transactions X ho' T n tps = Some (Ok out) ↔ Forall2 all_classified tps out.
Proof.
  intros Hho HF. exists ex_rules_T. split; [exact example_leaves|].
  split; [by apply (loaded_checked F ho 1 path), example_loaded|]. split; [intros n Hn; by apply example_loaded|].
  intros X ho' n tps out Hn. by apply c122_outcome.
Qed.
Lemma c122_exists d p : ∃ p', classified d p p' ∧ ∀ q, classified d p q → q = p'.
Proof. exists (final (assigned_fun d p) p). split; [apply final_classified|]. intros q. apply classified_fun. Qed.
Lemma classify_all tps : ∃ out, Forall2 all_classified tps out.
Proof. destruct (c122_ends (TextEnv (λ _ _, true) (λ _ _ s, s) id) default_order 5 tps ltac:(lia)) as [out H]. exists out. by apply c122_outcome in H. Qed.

Lemma c122_command E X F ho n path input output w tps : hash_order_ok ho → has_example_rules F path → 5 ≤ n →
  journal_read E w input tps → writable E output →
  ∃ es out, rules_cmd E X F ho n path input output w = (es, Ok (Some tt)) ∧ Forall2 all_classified tps out ∧
    holds w (steps w es) output (e_print E (into_ledger ho out)) ∧ ∀ p, output ≠ Path p → same_file w (steps w es) p.
Proof.
  intros Hho HF Hn Hj Hw. destruct (rules_cmd_spec E X F ho n path input output w) as (es & r & H & Hcase).
  pose proof (example_loaded F ho n path Hho HF ltac:(lia)) as Hl.
  destruct (c122_ends X ho n tps Hn) as [out0 Hout0].
  destruct Hcase as [(_ & _ & Hno)|(T' & tps' & out & es1 & es2 & r2 & H1 & H2 & H3 & Hq & -> & Hwr & Hr)].
  - by destruct (Hno _ _ _ Hl Hj Hout0).
  - rewrite Hl in H1. injection H1 as <-. rewrite (journal_read_fun _ _ _ _ _ H2 Hj) in H3.
    destruct (write_file_ok E output (e_print E (into_ledger ho out)) (steps w es1) Hw) as [es3 Hw3].
    unfold write_ledger in Hwr. rewrite Hwr in Hw3. injection Hw3 as <- ->. rewrite (proj1 Hr eq_refl) in H.
    exists (es1 ++ es2), out. split; [done|]. split; [by apply (c122_outcome X ho n)|].
    destruct (write_file_spec E output (e_print E (into_ledger ho out)) (steps w es1)) as (es3 & r3 & Hw' & Hs & _).
    rewrite Hwr in Hw'. injection Hw' as <- <-. destruct Hs as [[_ Hs]|[? _]]; [|done]. rewrite steps_app, Hs.
    destruct (quiet_untouched w es1 Hq) as (Hf & _ & Ho). split.
    + destruct output as [|p]; cbn; [by rewrite Ho|by rewrite lookup_insert].
    + intros p Hp. pose proof (written_other (steps w es1) output (e_print E (into_ledger ho out)) p Hp) as Hx. unfold same_file in *. by rewrite Hx, Hf.
Qed.

(** * Twice *)

Lemma unknown_again d p p' a : classified d p p' → ¬ assigned d p' a.
Proof.
  intros H Ha.
  assert (value_of p' (s2l "trn_type") = None ∧ value_of p' (s2l "bank") = None) as [V1 V2].
  { split; apply (cl_gone _ _ _ H); [right; right; left|right; left]. }
  assert (p_account (pi_raw p') = s2l "expenses:unknown" ∨ p_account (pi_raw p') = s2l "income:unknown" → p_account (pi_raw p') = p_account (pi_raw p) ∧ ∀ a, ¬ assigned d p a) as Hacc.
  { intros Hu. destruct (assigned_fun d p) as [b|] eqn:E.
    - apply assigned_iff in E. destruct (cl_known _ _ _ H b E) as [Hb _]. exfalso. rewrite Hb in Hu. clear -E Hu.
      destruct E; destruct Hu as [Hu|Hu]; revert Hu; by_compute.
    - assert (∀ a, ¬ assigned d p a) as Hn by (intros b Hb%assigned_iff; congruence). split; [|done]. by apply (cl_unknown _ _ _ H). }
  destruct Ha as [H1 H2|H1 H2|H1 H2 H3|H1 H2 H3|H1 H2 H3]; [| |congruence..].
  - destruct Hacc as [Ea Hn]; [by left|]. apply (Hn (s2l "expenses:petty")). apply cash_withdrawn; congruence.
  - destruct Hacc as [Ea Hn]; [by right|]. apply (Hn (s2l "income:salary")). apply salary_paid; congruence.
Qed.
Lemma c122_twice tps out out' : Forall2 all_classified tps out → Forall2 all_classified out out' →
  (∀ p, p ∈ all_posts out' → has_tag p (s2l "unknown-account")) ∧
  Forall2 (λ tp tp', Forall2 same_account (tp_posts tp) (tp_posts tp')) out out'.
Proof.
  intros H H'.
  assert (Forall2 (λ tp tp', Forall2 (λ p p', same_account p p' ∧ has_tag p' (s2l "unknown-account")) (tp_posts tp) (tp_posts tp')) out out') as G.
  { revert out' H'. induction H as [|tp tp' tps tps' [E H] _ IH]; intros out' H'; inversion H' as [|? tp2 ? tps2 [E' Hp] Hr]; subst; [constructor|].
    constructor; [|by apply IH]. rewrite E in Hp. clear -H Hp. revert H Hp. generalize (tp_posts tp2). generalize (tp_posts tp').
    induction (tp_posts tp) as [|p ps IHp]; intros ps1 ps2 H Hp; inversion H; subst; inversion Hp; subst; constructor; [|by eapply IHp].
    match goal with Hc : classified _ p ?q, Hc' : classified _ ?q ?q' |- _ => 
      pose proof (cl_unknown _ _ _ Hc' (λ a, unknown_again _ _ _ a Hc)) as [K1 K2]; by split end. }
  split.
  - intros p (tp & Hp & (k & Hk)%elem_of_list_lookup)%elem_of_list_bind. destruct (Forall2_lookup_r _ _ _ _ _ G Hk) as (tp0 & _ & Hps).
    apply elem_of_list_lookup in Hp as [i Hi]. destruct (Forall2_lookup_r _ _ _ _ _ Hps Hi) as (p0 & _ & _ & Ht). done.
  - eapply Forall2_impl; [exact G|]. intros tp tp' Hx. eapply Forall2_impl; [exact Hx|]. by intros p q [? _].
Qed.

(** * Imported statements *)

Lemma value_is p vs k v : values_are p vs → (∀ x y, (k, x) ∈ vs → (k, y) ∈ vs → x = y) → (k, v) ∈ vs →
  ∀ x, x ≠ [] → value_of (posting_internal_of p) k = Some x ↔ trim v = x.
Proof.
  intros H Hu Hin x Hx. unfold value_of. rewrite (H k x). split.
  - intros (y & Hy & E & _). by rewrite (Hu v y Hin Hy).
  - intros <-. by exists v.
Qed.
Lemma value_not p vs k : values_are p vs → (∀ x, (k, x) ∉ vs) → value_of (posting_internal_of p) k = None.
Proof.
  intros H Hn. unfold value_of. destruct (value_tags (pi_comment (posting_internal_of p)) !! k) as [v|] eqn:E; [|done].
  apply H in E as (x & Hx & _). by destruct (Hn x).
Qed.
Lemma classified_account d p p' : classified d p p' →
  (∀ a, assigned d p a → p_account (pi_raw p') = a ∧ ¬ has_tag p' (s2l "unknown-account")) ∧
  ((∀ a, ¬ assigned d p a) → p_account (pi_raw p') = p_account (pi_raw p) ∧ has_tag p' (s2l "unknown-account")).
Proof. intros H. split; [exact (cl_known _ _ _ H)|exact (cl_unknown _ _ _ H)]. Qed.
Lemma own_ruled d p p' name vs : classified d (posting_internal_of p) p' → p_account p = s2l "assets:unknown" → values_are p vs →
  (∀ k x y, (k, x) ∈ vs → (k, y) ∈ vs → x = y) → (s2l "account", name) ∈ vs → (s2l "bank", s2l "Nationwide") ∈ vs →
  own_becomes name (p_account (pi_raw p')) ∧ (has_tag p' (s2l "unknown-account") ↔ p_account (pi_raw p') = s2l "assets:unknown").
Proof.
  intros Hc Hacc Hv Hu Hn Hb.
  assert (p_account (pi_raw (posting_internal_of p)) = s2l "assets:unknown") as Ha by done.
  assert (p_account (pi_raw (posting_internal_of p)) ∉ [s2l "expenses:unknown"; s2l "income:unknown"]) as Hnot by (rewrite Ha; by_compute).
  assert (value_of (posting_internal_of p) (s2l "bank") = Some (s2l "Nationwide")) as Vb.
  { apply (value_is p vs (s2l "bank") (s2l "Nationwide") Hv); [apply Hu|done|by_compute|by_compute]. }
  assert (∀ x, x ≠ [] → value_of (posting_internal_of p) (s2l "account") = Some x ↔ trim name = x) as Va by (apply (value_is p vs); auto; apply Hu).
  destruct (classified_account _ _ _ Hc) as [K U].
  destruct (decide (trim name = s2l "Current")) as [E|E].
  { destruct (K (s2l "assets:nationwide:current")) as [K1 K2].
    { apply current_account; [done|done|]. apply Va; [by_compute|done]. }
    split; [by left|]. split; [done|]. intros Hx. rewrite K1 in Hx. exfalso. revert Hx. by_compute. }
  destruct (decide (trim name = s2l "Savings")) as [E'|E'].
  { destruct (K (s2l "assets:nationwide:savings")) as [K1 K2].
    { apply savings_account; [done|done|]. apply Va; [by_compute|done]. }
    split; [right; by left|]. split; [done|]. intros Hx. rewrite K1 in Hx. exfalso. revert Hx. by_compute. }
  destruct U as [U1 U2].
  { intros a [H1 H2|H1 H2|H1 H2 H3|H1 H2 H3|H1 H2 H3].
    - apply Hnot. rewrite H1. left.
    - apply Hnot. rewrite H1. right; left.
    - apply Hnot. rewrite H1. right; left.
    - apply E. apply Va; [by_compute|done].
    - apply E'. apply Va; [by_compute|done]. }
  rewrite U1, Ha. split; [|done]. right; right. split; [|done]. rewrite !not_elem_of_cons. auto using not_elem_of_nil.
Qed.
Lemma peer_ruled d p p' r name : classified d (posting_internal_of p) p' → d = row_description r → values_are p (nw_details name r) →
  (p_account p = s2l "expenses:unknown" → expense_becomes r (p_account (pi_raw p'))) ∧
  (p_account p = s2l "income:unknown" → income_becomes r (p_account (pi_raw p'))) ∧
  (p_account p = s2l "expenses:unknown" ∨ p_account p = s2l "income:unknown" →
   has_tag p' (s2l "unknown-account") ↔ p_account (pi_raw p') = p_account p).
Proof.
  intros Hc -> Hv. destruct (classified_account _ _ _ Hc) as [K U].
  assert (s2l "expenses:unknown" ≠ s2l "income:unknown") as Hne by by_compute.
  assert (value_of (posting_internal_of p) (s2l "trn_type") = Some (s2l "Interest") ↔ is_interest r) as Hi.
  { destruct r as [x|x].
    - assert (value_of (posting_internal_of p) (s2l "trn_type") = None) as ->.
      { apply (value_not _ _ _ Hv). intros y. unfold nw_details. cbn [app].
        rewrite !elem_of_cons. intros H. repeat destruct H as [[= H _]|H]; [..|by apply elem_of_nil in H]; revert H; by_compute. }
      split; [done|]. by intros (y & [=] & _).
    - rewrite (value_is p _ (s2l "trn_type") (r6_type x) Hv).
      + split; [intros H; by exists x|]. by intros (y & [= <-] & H).
      + intros y z. unfold nw_details. cbn [app]. rewrite !elem_of_cons. intros H H'.
        assert (∀ y, (s2l "trn_type", y) = (s2l "account", name) ∨ (s2l "trn_type", y) = (s2l "bank", s2l "Nationwide") ∨ (s2l "trn_type", y) = (s2l "trn_type", r6_type x) ∨ (s2l "trn_type", y) ∈ [] → y = r6_type x) as G.
        { intros w [H1|[H1|[H1|H1]]].
          - apply (f_equal fst) in H1. exfalso. revert H1. cbn [fst]. by_compute.
          - apply (f_equal fst) in H1. exfalso. revert H1. cbn [fst]. by_compute.
          - by apply (f_equal snd) in H1.
          - by apply elem_of_nil in H1. }
        by rewrite (G y H), (G z H').
      + unfold nw_details. right; right; left.
      + by_compute. }
  assert (p_account (pi_raw (posting_internal_of p)) = p_account p) as Ha by done.
  split; [|split].
  - intros E. destruct (decide (row_description r = s2l "ATM Withdrawal")) as [D|D].
    + left. split; [done|]. apply K. apply cash_withdrawn; [by rewrite Ha|done].
    + right. split; [done|]. rewrite <-E, <-Ha. apply U. intros a [H1 H2|H1 H2|H1 H2 H3|H1 H2 H3|H1 H2 H3].
      * by apply D.
      * apply Hne. by rewrite <-E, <-Ha.
      * apply Hne. by rewrite <-E, <-Ha.
      * apply H1. rewrite Ha, E. left.
      * apply H1. rewrite Ha, E. left.
  - intros E. destruct (decide (row_description r = s2l "Payroll")) as [D|D].
    { left. split; [done|]. apply K. apply salary_paid; [by rewrite Ha|done]. }
    destruct (decide (value_of (posting_internal_of p) (s2l "trn_type") = Some (s2l "Interest"))) as [D'|D'].
    + right; left. split; [done|]. split; [by apply Hi|]. apply K. apply interest_paid; [by rewrite Ha|done|done].
    + right; right. split; [done|]. split; [by rewrite <-Hi|]. rewrite <-E, <-Ha. apply U. intros a [H1 H2|H1 H2|H1 H2 H3|H1 H2 H3|H1 H2 H3].
      * apply Hne. by rewrite <-H1, Ha.
      * by apply D.
      * by apply D'.
      * apply H1. rewrite Ha, E. right; left.
      * apply H1. rewrite Ha, E. right; left.
  - intros Hor. assert (∀ a, assigned (row_description r) (posting_internal_of p) a → a ∉ [s2l "expenses:unknown"; s2l "income:unknown"]) as Hch.
    { intros a Has. destruct Has; by_compute. }
    destruct (assigned_fun (row_description r) (posting_internal_of p)) as [a|] eqn:Ea.
    + apply assigned_iff in Ea. destruct (K a Ea) as [K1 K2]. split; [done|]. intros E. destruct (Hch a Ea).
      rewrite <-K1, E. rewrite !elem_of_cons. tauto.
    + rewrite Ha in U. destruct U as [U1 U2]; [|by split]. intros a Has%assigned_iff. congruence.
Qed.
Lemma own_keys (name seq : str) r k x y : (k, x) ∈ (s2l "seq", seq) :: nw_details name r → (k, y) ∈ (s2l "seq", seq) :: nw_details name r → x = y.
Proof.
  assert (NoDup ((s2l "seq", seq) :: nw_details name r).*1) as Hd.
  { destruct r as [z|z]; unfold nw_details; cbn [app fmap list_fmap fst]; by_compute. }
  generalize dependent ((s2l "seq", seq) :: nw_details name r). clear. intros l Hd. induction l as [|[k' z] l IH]; [by intros ?%elem_of_nil|].
  csimpl in Hd. apply NoDup_cons in Hd as [Hn Hd]. rewrite !elem_of_cons. intros [H|H] [H'|H'].
  - congruence.
  - injection H as -> ->. destruct Hn. apply elem_of_list_fmap. by exists (k', y).
  - injection H' as -> ->. destruct Hn. apply elem_of_list_fmap. by exists (k', x).
  - by apply IH.
Qed.
Lemma c122_nationwide pd ho o records ns ts name rs k t r tp : hash_order_ok ho → parser_ok pd → fields_ok records →
  nw_csv_import pd ho o records = Ok (ns, ts) → statement_reads pd records name rs → ts !! k = Some t → rs !! k = Some r →
  all_classified (transaction_postings_of t) tp →
  ∃ own peer, tp_posts tp = [own; peer] ∧ own_becomes name (p_account (pi_raw own)) ∧
    (has_tag own (s2l "unknown-account") ↔ p_account (pi_raw own) = s2l "assets:unknown") ∧
    (∀ b, paid_out r = Some b → (0 < dec_value (a_quantity b))%Q → expense_becomes r (p_account (pi_raw peer))) ∧
    (∀ a, paid_in r = Some a → (0 < dec_value (a_quantity a))%Q → income_becomes r (p_account (pi_raw peer))) ∧
    (has_tag peer (s2l "unknown-account") ↔ p_account (pi_raw peer) ∈ [s2l "expenses:unknown"; s2l "income:unknown"]).
Proof.
  intros Hho Hpd Hf Hi Hs Ht Hr [Htrn Hp].
  destruct (nw_says pd ho o records ns ts name rs k t r Hho Hpd Hf Hi Hs Ht Hr) as (own & peer & seq & Eps & _ & Vo & Vp & _ & _).
  destruct (c46_nw pd ho o records ns ts t Hho Hi (elem_of_list_lookup_2 _ _ _ Ht)) as (own' & peer' & Eps' & a & b & acct & [O1 O2] & [P1 P2] & _ & [S1 [S2 S3]] & _ & _).
  rewrite Eps in Eps'. injection Eps' as <- <-.
  destruct (Forall2_lookup_lr _ _ _ _ _ _ (c48 _ _ _ _ _ _ _ _ Hi Hs) Hr Ht) as (own' & peer' & a' & Eps' & _ & Ed & [_ R2] & _ & Hside).
  rewrite Eps in Eps'. injection Eps' as <- <-. rewrite O2 in R2. injection R2 as <-.
  unfold transaction_postings_of in Hp. cbn [tp_posts tp_trn] in Hp. rewrite Eps in Hp.
  assert (t_description (ti_raw (transaction_internal_of (set_tpostings [] t))) = row_description r) as Ed' by by rewrite <-Ed.
  rewrite Ed' in Hp. apply Forall2_cons_inv_l in Hp as (own' & l & Co & Hp & ->).
  apply Forall2_cons_inv_l in Hp as (peer' & l' & Cp & Hp & ->). apply Forall2_nil_inv_l in Hp as ->.
  exists own', peer'. split; [done|].
  destruct (own_ruled _ _ _ name _ Co O1 Vo) as [W1 W2].
  { intros k' x y. apply own_keys. }
  { right; left. }
  { right; right; left. }
  destruct (peer_ruled _ _ _ r name Cp eq_refl Vp) as (Q1 & Q2 & Q3). rewrite P1 in *.
  split; [done|]. split; [done|]. split; [|split].
  - intros c Hc Hpos. apply Q1. destruct Hside as [[_ Hn]|(_ & y & Hy & [_ Hop])]; [congruence|]. apply S1. rewrite Hy in Hc. injection Hc as ->.
    rewrite Hop. clear -Hpos. revert Hpos. generalize (dec_value (a_quantity c)). intros q. unfold Qlt. destruct q as [qn qd]. cbn. lia.
  - intros c Hc Hpos. apply Q2. destruct Hside as [[Hn _]|(Hn & _)]; [|congruence]. apply S2. rewrite Hn in Hc. by injection Hc as ->.
  - specialize (Q3 S3). rewrite Q3. destruct S3 as [-> | ->].
    + specialize (Q1 eq_refl). split; [intros ->; left|]. intros Hin. destruct Q1 as [[_ E]|[_ E]]; [|done]. rewrite E in Hin. exfalso. revert Hin. by_compute.
    + specialize (Q2 eq_refl). split; [intros ->; right; left|]. intros Hin. destruct Q2 as [[_ E]|[(_ & _ & E)|(_ & _ & E)]]; [..|done]; rewrite E in Hin; exfalso; revert Hin; by_compute.
Qed.

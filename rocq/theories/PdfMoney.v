(** Proofs for C134. *)
From Verif Require Import MergeClaims.
From Verif Require Import Base Types FingerprintModel FingerprintClaims ImportClaims NwCsvModel OcrModel PdfModel PdfClaims ImportLaws PdfLaws PdfLaws2 PdfMoneyClaims.
From Coq Require Import Lia QArith.
Local Open Scope nat_scope.

Lemma money_reads E s q a : reads_plain E → money_text s q → reads_amount E s a → pounds a q ∧ d_neg (a_quantity a) = false.
Proof.
  intros HE (P & F & HP & HF & Hl & Es & Eq) [Ha Hc]. rewrite Es in Ha.
  destruct (HE P F HP HF Hl) as (x & Hx & Hn & Hv). rewrite Hx in Ha. injection Ha as Ha. subst x.
  split; [|done]. split; [done|]. eapply Qeq_trans; [exact Hv|by apply Qeq_sym].
Qed.
Lemma money_accepted E s q : reads_plain E → money_text s q → ∃ a, reads_amount E s a ∧ d_neg (a_quantity a) = false.
Proof.
  intros HE (P & F & HP & HF & Hl & Es & Eq). destruct (HE P F HP HF Hl) as (x & Hx & Hn & Hv).
  exists (Amount x (Commodity (s2l "GBP") PosLeft)). split; [|done]. split; [|done]. by rewrite Es.
Qed.
Lemma money_unique s q q' : money_text s q → money_text s q' → (q == q')%Q.
Proof.
  intros (P & F & HP & HF & _ & E & Eq) (P' & F' & HP' & HF' & _ & E' & Eq'). rewrite E in E'.
  assert (∀ P P' F F' : str, (∀ c, c ∈ P → c ≠ 46%N) → (∀ c, c ∈ P' → c ≠ 46%N) → P ++ 46%N :: F = P' ++ 46%N :: F' → P = P' ∧ F = F') as H.
  { clear. induction P as [|x P IH]; intros [|y P'] F F' H H' E; cbn in E.
    - by injection E.
    - injection E as <- _. edestruct (H' 46%N); [left|done].
    - injection E as -> _. edestruct (H 46%N); [left|done].
    - injection E as -> E. apply IH in E as [-> ->]; [done|..]; intros c Hc; [apply H|apply H']; by right. }
  apply H in E' as [-> ->]; [|intros c Hc ->; apply HP in Hc; lia|intros c Hc ->; apply HP' in Hc; lia].
  eapply Qeq_trans; [exact Eq|by apply Qeq_sym].
Qed.

Lemma pounds_opposite a b q : pounds a q → opposite a b → pounds b (- q).
Proof. intros [Hc Hv] [Hc' Hv']. split; [congruence|]. eapply Qeq_trans; [exact Hv'|]. by apply Qopp_comp. Qed.
Lemma group_money E g t : reads_plain E → group_transaction E g t →
  ∃ own peer, t_postings t = [own; peer] ∧
    (∀ s q, tl_receipt g.1 = Some s → money_text s q → posts_pounds own q ∧ posts_pounds peer (- q)) ∧
    (∀ s q, tl_payment g.1 = Some s → money_text s q → posts_pounds own (- q) ∧ posts_pounds peer q) ∧
    (p_balance own = None ↔ omap tl_balance (group_lines g) = []) ∧
    ∀ s q, last (omap tl_balance (group_lines g)) = Some s → money_text s q → ∃ b, p_balance own = Some (BalAmount b) ∧ pounds b q.
Proof.
  intros HE (d & a & es & bs & own & peer & b & acct & [_ Ha _ Hb] & _ & _ & _ & _ & _ & _ & Hps & [Hoa Ho] & Hbal & [Hpa Hp] & Hop & _ & _).
  exists own, peer. split; [done|].
  assert (∀ x, pounds a x → posts_pounds own x ∧ posts_pounds peer (- x)) as Hboth.
  { intros x Hx. split; [exists a|exists b]; (split; [split; [done|done]|]); [done|]. by eapply pounds_opposite. }
  destruct Ha as (s & c & Hc & Hn & Hcase). split; [|split; [|split]].
  - intros s' q Hs Hm. destruct Hcase as [(E1 & E2 & ->)|(E1 & E2 & ->)]; [|by rewrite Hs in E2].
    rewrite Hs in E1. injection E1 as <-. apply Hboth. by eapply money_reads.
  - intros s' q Hs Hm. destruct Hcase as [(E1 & E2 & ->)|(E1 & E2 & ->)]; [by rewrite Hs in E2|].
    rewrite Hs in E1. injection E1 as <-. destruct (money_reads _ _ _ _ HE Hm Hc) as [Hq _].
    assert (opposite c (Amount (dec_neg (a_quantity c)) (a_commodity c))) as Hneg by (split; [done|apply dec_value_neg]).
    destruct (Hboth (- q)%Q) as [H1 H2]; [by eapply pounds_opposite|]. split; [done|].
    destruct H2 as (x & Hx & [Hxc Hxv]). exists x. split; [done|]. split; [done|]. eapply Qeq_trans; [exact Hxv|apply Qopp_involutive].
  - rewrite Hbal. destruct (omap tl_balance (group_lines g)) as [|x l] eqn:El.
    + apply Forall2_nil_inv_l in Hb as ->. done.
    + apply Forall2_cons_inv_l in Hb as (y & k & Hy & Hk & ->). split; [|done]. intros H.
      destruct (last (y :: k)) eqn:EE; [done|]. by apply last_None in EE.
  - intros s' q Hs Hm. rewrite Hbal. apply last_Some in Hs as (l & Hs). rewrite Hs in Hb.
    apply Forall2_app_inv_l in Hb as (l1 & l2 & _ & H2 & ->). apply Forall2_cons_inv_l in H2 as (y & k & Hy & Hk & ->).
    apply Forall2_nil_inv_l in Hk as ->. rewrite last_snoc. exists y. split; [done|]. by eapply money_reads.
Qed.

Lemma readable_reads E g : reads_plain E → readable_group E g → ∃ d a es bs, group_reads E g d a es bs.
Proof.
  intros HE [[d Hd] (s & q & Hm & Hcase) He Hb].
  destruct (money_accepted _ _ _ HE Hm) as (c & Hc & Hn).
  assert (∃ a, group_amount E g.1 a) as [a Ha].
  { destruct Hcase as [[H1 H2]|[H1 H2]]; eexists; exists s, c; (split; [done|]); (split; [done|]); [left|right]; by split_and!. }
  assert (∃ es, Forall2 (λ l e, pe_effective E (tl_detail l) = Some e) (filter effective_line g.2) es) as [es Hes].
  { assert (∀ l, l ∈ filter effective_line g.2 → is_Some (pe_effective E (tl_detail l))) as H
      by (intros l [H1 H2]%elem_of_list_filter; by apply He).
    induction (filter effective_line g.2) as [|l k IH]; [by exists []; constructor|].
    destruct IH as [es IH]; [intros; apply H; by right|]. destruct (H l) as [e Hl]; [left|]. exists (e :: es). by constructor. }
  assert (∃ bs, Forall2 (reads_amount E) (omap tl_balance (group_lines g)) bs) as [bs Hbs].
  { induction (omap tl_balance (group_lines g)) as [|l k IH]; [by exists []; constructor|].
    destruct IH as [bs IH]; [intros; apply Hb; by right|]. destruct (Hb l) as [x Hl]; [left|].
    destruct (money_accepted _ _ _ HE Hl) as (y & Hy & _). exists (y :: bs). by constructor. }
  by exists d, a, es, bs.
Qed.

Lemma c134_amounts E ho o doc ns ts ls skip gs k g t : reads_plain E → pdf_import E ho o doc = Ok (ns, ts) →
  statement_lines E doc ls → grouped ls skip gs → gs !! k = Some g → ts !! k = Some t →
  ∃ own peer, t_postings t = [own; peer] ∧
    (∀ s q, tl_receipt g.1 = Some s → money_text s q → posts_pounds own q ∧ posts_pounds peer (- q)) ∧
    (∀ s q, tl_payment g.1 = Some s → money_text s q → posts_pounds own (- q) ∧ posts_pounds peer q) ∧
    (p_balance own = None ↔ omap tl_balance (group_lines g) = []) ∧
    ∀ s q, last (omap tl_balance (group_lines g)) = Some s → money_text s q → ∃ b, p_balance own = Some (BalAmount b) ∧ pounds b q.
Proof.
  intros HE Hi Hls Hgs Hg Ht. apply group_money with E; [done|].
  assert (Forall2 (group_transaction E) gs ts) as H by (eapply c66_groups; eauto).
  eapply (Forall2_lookup_lr _ _ _ k); eauto.
Qed.
Lemma c134_accepts E ho o doc name ns ls skip gs : reads_plain E → account_is doc name → make_namespace o name = Ok ns → statement_lines E doc ls →
  grouped ls skip gs → fp_part ns → (∀ g, g ∈ gs → readable_group E g) →
  (∀ m, m ∈ sequence None 0 gs → (Z.of_nat m < 2147483647)%Z) → ∃ ts, pdf_import E ho o doc = Ok (ns, ts).
Proof.
  intros HE Ha Hn Hls Hgs Hp Hg Hm. eapply c66_accepts; eauto. intros g Hx. apply readable_reads; auto.
Qed.

(** The order of dates is the order of the days of the calendar (C08). *)
From Verif Require Import MergeClaims MergeSpec.
From Verif Require Import Base BaseProofs Types SpecBase MergeModel NwCsvModel PaypalModel FingerprintModel OcrModel PdfModel PdfClaims TimeClaims PdfTable TimeProofs PropsMerge.
From Coq Require Import Lia ZArith.
Local Open Scope Z_scope.

Lemma date_leb_days d d' : valid_day d → valid_day d' → date_leb d d' = true → days_of_date d ≤ days_of_date d'.
Proof.
  destruct d as [[y m] n], d' as [[y' m'] n']. intros H H'. rewrite date_leb_spec. cbn [fst snd].
  change (valid_date y m n) in H. change (valid_date y' m' n') in H'.
  pose proof (days_in_year _ _ _ H) as B. pose proof (days_in_year _ _ _ H') as B'. intros [L|[-> [L|[-> L]]]].
  - pose proof (year_start_mono (y + 1) (y' - (y + 1))) as M. replace (y + 1 + (y' - (y + 1))) with y' in M by lia. specialize (M ltac:(lia)). lia.
  - clear B B'. rewrite !day_in_month. pose proof H as [Hm _]. pose proof H' as [Hm' _]. rewrite valid_date_days in H, H'.
    apply (month_start_cases y') in Hm, Hm'. cbv zeta in Hm, Hm'. rewrite !elem_of_cons, elem_of_nil in Hm, Hm'.
    destruct Hm as [Hm|[Hm|[Hm|[Hm|[Hm|[Hm|[Hm|[Hm|[Hm|[Hm|[Hm|[Hm|[]]]]]]]]]]]]]; injection Hm as -> Hm; rewrite Hm; clear Hm; cbn [month_days] in H;
    (destruct Hm' as [Hm|[Hm|[Hm|[Hm|[Hm|[Hm|[Hm|[Hm|[Hm|[Hm|[Hm|[Hm|[]]]]]]]]]]]]]; injection Hm as -> Hm; rewrite Hm; clear Hm; cbn [month_days] in H';
     try (exfalso; lia); destruct (leap_year y'); lia).
  - rewrite !day_in_month. lia.
Qed.
Lemma date_order a b x y : day_number a x → day_number b y → date_leb a b = true ↔ x ≤ y.
Proof.
  intros Ha Hb. pose proof (number_valid _ _ Ha) as Va. pose proof (number_valid _ _ Hb) as Vb.
  rewrite (day_number_is _ _ Ha), (day_number_is _ _ Hb). split; [by apply date_leb_days|]. intros L.
  destruct (date_leb_total a b) as [?|H]; [done|]. pose proof (date_leb_days _ _ Vb Va H) as L'.
  rewrite (days_inj a b Va Vb); [apply date_leb_refl|lia].
Qed.
Lemma sorted_days out i k a b x y : StronglySorted (λ a b, date_leb (tp_date a) (tp_date b) = true) out →
  (i < k)%nat → out !! i = Some a → out !! k = Some b → day_number (tp_date a) x → day_number (tp_date b) y → x ≤ y.
Proof.
  intros Hs Hik Hi Hk Ha Hb. apply (date_order _ _ _ _ Ha Hb). clear x y Ha Hb. revert i k Hik Hi Hk.
  induction Hs as [|c out Hs IH Hall]; intros i k Hik Hi Hk; [done|]. destruct k as [|k]; [lia|]. destruct i as [|i].
  - injection Hi as ->. rewrite Forall_forall in Hall. apply Hall. by eapply elem_of_list_lookup_2.
  - apply (IH i k); [lia|done|done].
Qed.

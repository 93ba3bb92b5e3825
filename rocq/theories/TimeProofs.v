(** Days and instants. *)
From Verif Require Import MergeClaims.
From Verif Require Import Base Types SpecBase BaseProofs StrProofs CommentModel Sha1 FingerprintModel NwCsvModel PaypalModel
  CommentClaims FingerprintClaims ImportClaims OcrModel PdfModel PdfClaims PdfTable ImportPaypal TimeClaims.
From Coq Require Import Lia ZArith.
Local Open Scope Z_scope.

(** The days before 1 March of the year [y]. *)
Definition days_to_march (y : Z) : Z := y * 365 + y / 4 - y / 100 + y / 400.
Lemma era_days y : y / 400 * 146097 + ((y - y / 400 * 400) * 365 + (y - y / 400 * 400) / 4 - (y - y / 400 * 400) / 100) = days_to_march y.
Proof. unfold days_to_march. Z.to_euclidean_division_equations. lia. Qed.
Lemma march_next y : days_to_march (y + 1) = days_to_march y + (if leap_year (y + 1) then 366 else 365).
Proof.
  unfold days_to_march, leap_year.
  destruct ((y + 1) mod 4 =? 0) eqn:E4, ((y + 1) mod 100 =? 0) eqn:E1, ((y + 1) mod 400 =? 0) eqn:E5; cbn;
    repeat match goal with H : (_ =? _) = true |- _ => apply Z.eqb_eq in H | H : (_ =? _) = false |- _ => apply Z.eqb_neq in H end;
    Z.to_euclidean_division_equations; lia.
Qed.
Definition before_month (m : N) : Z := (153 * ((Z.of_N m + 9) mod 12) + 2) / 5.
Lemma days_of_date_spec y m d : days_of_date (y, m, d) =
  days_to_march (if (m <=? 2)%N then y - 1 else y) + before_month m + Z.of_N d - 1 - 719468.
Proof. unfold days_of_date, before_month. rewrite <- (era_days (if (m <=? 2)%N then y - 1 else y)). lia. Qed.
Lemma month_cases m : (1 ≤ m ≤ 12)%N → m ∈ [1; 2; 3; 4; 5; 6; 7; 8; 9; 10; 11; 12]%N.
Proof. intros H. rewrite !elem_of_cons. lia. Qed.
Ltac months := repeat match goal with
  | |- context [before_month ?m] => let v := eval vm_compute in (before_month m) in change (before_month m) with v
  | |- context [(?m <=? 2)%N] => let v := eval vm_compute in (m <=? 2)%N in change (m <=? 2)%N with v
  end; cbv iota.
Lemma next_day_number d d' : next_day d d' → days_of_date d' = days_of_date d + 1.
Proof.
  destruct d as [[y m] n]. intros [Hv H]. pose proof Hv as [Hm _]. destruct H as [[_ ->]|[(Hn & Hm' & ->)|(Hn & Hm' & ->)]]; rewrite !days_of_date_spec.
  - lia.
  - rewrite valid_date_days in Hv, Hn. assert (n = month_days y m) as -> by lia. destruct Hm' as [Hm' _]. clear Hv Hn.
    assert (m ∈ [1; 2; 3; 4; 5; 6; 7; 8; 9; 10; 11]%N) as H by (rewrite !elem_of_cons; lia). rewrite !elem_of_cons, elem_of_nil in H.
    destruct H as [->|[->|[->|[->|[->|[->|[->|[->|[->|[->|[->|[]]]]]]]]]]]]; cbn [month_days]; months; try lia.
    replace (days_to_march y) with (days_to_march ((y - 1) + 1)) by (f_equal; lia). rewrite march_next. replace (y - 1 + 1) with y by lia.
    destruct (leap_year y); lia.
  - assert (m = 12%N) as ->.
    { destruct (decide (m = 12%N)); [done|]. destruct Hm'. split; [lia|]. split; [lia|]. left. lia. }
    rewrite valid_date_days in Hv, Hn. cbn [month_days] in Hv, Hn. assert (n = 31%N) as -> by lia.
    change (12 <=? 2)%N with false. change (1 <=? 2)%N with true. cbv iota. replace (y + 1 - 1) with y by lia.
    change (before_month 1) with 306. change (before_month 12) with 275. lia.
Qed.
Lemma day_number_is d n : day_number d n → n = days_of_date d.
Proof.
  induction 1 as [|d d' n _ IH H|d d' n _ IH H]; [done|..]; apply next_day_number in H; lia.
Qed.

Definition counted (d : date) : Prop := ∃ n, day_number d n.
Lemma counted_next d d' : next_day d d' → counted d ↔ counted d'.
Proof. intros H. split; intros [n Hn]; [exists (n + 1); by eapply day_next|exists (n - 1); by eapply day_prev]. Qed.
Lemma valid_first y m : (1 ≤ m ≤ 12)%N → valid_date y m 1.
Proof. intros H. split; [done|]. split; [lia|]. left. lia. Qed.
Lemma counted_month y m n : valid_date y m n → counted (y, m, 1%N) ↔ counted (y, m, n).
Proof.
  induction n as [|n IH] using N.peano_ind; intros H; [destruct H as (_ & ? & _); lia|].
  destruct (decide (n = 0)%N) as [->|Hn]; [done|]. assert (valid_date y m n) as Hv.
  { rewrite valid_date_days in *. lia. }
  rewrite (IH Hv). apply counted_next. split; [done|]. left. rewrite N.add_1_r. done.
Qed.
Lemma counted_months y m : (1 ≤ m ≤ 12)%N → counted (y, 1%N, 1%N) ↔ counted (y, m, 1%N).
Proof.
  induction m as [|m IH] using N.peano_ind; intros H; [lia|]. destruct (decide (m = 0)%N) as [->|Hn]; [done|].
  rewrite IH by lia. assert (valid_date y m (month_days y m)) as Hv.
  { rewrite valid_date_days. assert (valid_date y m 1) as Hv by (apply valid_first; lia). rewrite valid_date_days in Hv. lia. }
  rewrite (counted_month y m _ Hv). apply counted_next. split; [done|]. right. left. rewrite !N.add_1_r. split; [|split; [by apply valid_first|done]].
  rewrite valid_date_days. lia.
Qed.
Lemma counted_year y : counted (y, 1%N, 1%N) ↔ counted (y + 1, 1%N, 1%N).
Proof.
  rewrite (counted_months y 12) by lia. rewrite (counted_month y 12 31) by (rewrite valid_date_days; cbn; lia).
  apply counted_next. split; [rewrite valid_date_days; cbn; lia|]. right. right. split; [rewrite valid_date_days; cbn; lia|]. split; [|done].
  rewrite valid_date_days. change (month_days y (12 + 1)) with 0%N. lia.
Qed.
Lemma counted_years y : counted (y, 1%N, 1%N).
Proof.
  assert (∀ k : nat, counted (1970 + Z.of_nat k, 1%N, 1%N) ∧ counted (1970 - Z.of_nat k, 1%N, 1%N)) as H.
  { induction k as [|k [IH1 IH2]].
    - assert (counted (1970, 1%N, 1%N)) by (exists 0; constructor). by rewrite Z.add_0_r, Z.sub_0_r.
    - split.
      + replace (1970 + Z.of_nat (S k)) with (1970 + Z.of_nat k + 1) by lia. by rewrite <- counted_year.
      + rewrite counted_year. by replace (1970 - Z.of_nat (S k) + 1) with (1970 - Z.of_nat k) by lia. }
  destruct (Z_le_gt_dec 1970 y).
  - destruct (H (Z.to_nat (y - 1970))) as [H1 _]. by replace (1970 + Z.of_nat (Z.to_nat (y - 1970))) with y in H1 by lia.
  - destruct (H (Z.to_nat (1970 - y))) as [_ H1]. by replace (1970 - Z.of_nat (Z.to_nat (1970 - y))) with y in H1 by lia.
Qed.
Lemma valid_counted d : valid_day d → day_number d (days_of_date d).
Proof.
  destruct d as [[y m] n]. intros H. cbn in H. pose proof H as [Hm _].
  assert (counted (y, m, n)) as [k Hk] by (apply (counted_month y m n H), (counted_months y m Hm), counted_years).
  by rewrite <- (day_number_is _ _ Hk).
Qed.
Lemma day_number_iff d n : valid_day d → day_number d n ↔ n = days_of_date d.
Proof. intros H. split; [apply day_number_is|]. intros ->. by apply valid_counted. Qed.
Lemma local_shows o d t i : valid_day d → shows o d t i ↔ i = local_instant d t o.
Proof.
  intros Hd. unfold shows, local_instant. destruct t as [[[h m] s] ns], i as [a b]. cbn [fst snd]. split.
  - intros (n & Hn & E & ->). apply (day_number_iff _ _ Hd) in Hn as ->. f_equal. lia.
  - intros [= -> ->]. exists (days_of_date d). split; [by apply valid_counted|]. split; [lia|done].
Qed.
Lemma row_time db r i : valid_day (pr_date r) →
  row_instant db r i ↔ ∃ o, TzModel.abbr_to_tz db (pr_time_zone r) = Some o ∧ shows o (pr_date r) (pr_time r) i.
Proof.
  intros Hd. unfold row_instant. split; intros (o & Ho & H); exists o; (split; [done|]); [by apply local_shows|by apply (local_shows o _ _ _ Hd)].
Qed.

(** ** One date for each number *)
Lemma number_valid d n : day_number d n → valid_day d.
Proof.
  intros H. destruct H as [|[[y m] k] d' n _ H|[[y m] k] d' n _ H].
  - apply valid_first. cbn. lia.
  - destruct H as [_ [[H ->]|[(_ & H & ->)|(_ & _ & ->)]]]; [done..|]. apply valid_first. cbn. lia.
  - by destruct H.
Qed.
Definition year_start (y : Z) : Z := days_of_date (y, 1%N, 1%N).
Lemma year_start_next y : year_start (y + 1) = year_start y + (if leap_year y then 366 else 365).
Proof.
  unfold year_start. rewrite !days_of_date_spec. months. replace (y + 1 - 1) with ((y - 1) + 1) by lia. rewrite march_next.
  replace (y - 1 + 1) with y by lia. lia.
Qed.
Lemma year_start_mono y k : 0 ≤ k → year_start y + k ≤ year_start (y + k).
Proof.
  intros Hk. pattern k. apply natlike_ind; [|clear|done]; [by rewrite !Z.add_0_r|]. intros x Hx IH.
  replace (y + Z.succ x) with (y + x + 1) by lia. rewrite year_start_next. destruct (leap_year _); lia.
Qed.
(** The days of a year before a month. *)
Definition month_start (y : Z) (m : N) : Z := days_of_date (y, m, 1%N) - year_start y.
Lemma month_start_cases y m : (1 ≤ m ≤ 12)%N → 
  (m, month_start y m) ∈ (let l := if leap_year y then 1 else 0 in [(1%N, 0); (2%N, 31); (3%N, 59 + l); (4%N, 90 + l); (5%N, 120 + l); (6%N, 151 + l); (7%N, 181 + l);
    (8%N, 212 + l); (9%N, 243 + l); (10%N, 273 + l); (11%N, 304 + l); (12%N, 334 + l)]).
Proof.
  intros Hm%month_cases. unfold month_start, year_start. rewrite !days_of_date_spec.
  assert (days_to_march y = days_to_march (y - 1) + (if leap_year y then 366 else 365)) as Hy.
  { replace (days_to_march y) with (days_to_march (y - 1 + 1)) by (f_equal; lia). rewrite march_next. by replace (y - 1 + 1) with y by lia. }
  rewrite !elem_of_cons, elem_of_nil in Hm. cbv zeta. rewrite !elem_of_cons.
  destruct Hm as [->|[->|[->|[->|[->|[->|[->|[->|[->|[->|[->|[->|[]]]]]]]]]]]]]; months; rewrite ?Hy; destruct (leap_year y);
    repeat (first [left; f_equal; lia|right]).
Qed.
Lemma day_in_month y m d : days_of_date (y, m, d) = year_start y + month_start y m + Z.of_N d - 1.
Proof. unfold month_start, year_start. rewrite !days_of_date_spec. lia. Qed.
Lemma days_in_year y m d : valid_date y m d → year_start y ≤ days_of_date (y, m, d) < year_start (y + 1).
Proof.
  intros H. pose proof H as [Hm _]. rewrite valid_date_days in H. rewrite day_in_month, year_start_next. apply (month_start_cases y) in Hm.
  cbv zeta in Hm. rewrite !elem_of_cons, elem_of_nil in Hm.
  destruct Hm as [Hm|[Hm|[Hm|[Hm|[Hm|[Hm|[Hm|[Hm|[Hm|[Hm|[Hm|[Hm|[]]]]]]]]]]]]]; injection Hm as -> ->; cbn [month_days] in H; destruct (leap_year y); lia.
Qed.
Lemma days_inj d d' : valid_day d → valid_day d' → days_of_date d = days_of_date d' → d = d'.
Proof.
  destruct d as [[y m] n], d' as [[y' m'] n']. intros H H' E. cbn in H, H'.
  change (valid_date y m n) in H. change (valid_date y' m' n') in H'.
  pose proof (days_in_year _ _ _ H) as B. pose proof (days_in_year _ _ _ H') as B'.
  assert (y = y') as <-.
  { destruct (Z.lt_trichotomy y y') as [L|[?|L]]; [|done|].
    - pose proof (year_start_mono (y + 1) (y' - (y + 1))) as M. replace (y + 1 + (y' - (y + 1))) with y' in M by lia. specialize (M ltac:(lia)). lia.
    - pose proof (year_start_mono (y' + 1) (y - (y' + 1))) as M. replace (y' + 1 + (y - (y' + 1))) with y in M by lia. specialize (M ltac:(lia)). lia. }
  rewrite !day_in_month in E. pose proof H as [Hm _]. pose proof H' as [Hm' _]. rewrite valid_date_days in H, H'.
  apply (month_start_cases y) in Hm, Hm'. cbv zeta in Hm, Hm'. rewrite !elem_of_cons, elem_of_nil in Hm, Hm'. clear B B'.
  assert (m = m') as <-; [|f_equal; lia].
  destruct Hm as [Hm|[Hm|[Hm|[Hm|[Hm|[Hm|[Hm|[Hm|[Hm|[Hm|[Hm|[Hm|[]]]]]]]]]]]]]; injection Hm as -> Hm; rewrite Hm in E; clear Hm; cbn [month_days] in H;
  (destruct Hm' as [Hm|[Hm|[Hm|[Hm|[Hm|[Hm|[Hm|[Hm|[Hm|[Hm|[Hm|[Hm|[]]]]]]]]]]]]]; injection Hm as -> Hm; rewrite Hm in E; clear Hm; cbn [month_days] in H';
   try done; exfalso; destruct (leap_year y); lia).
Qed.
Lemma number_once : (∀ d, valid_day d → ∃ n, day_number d n) ∧
  (∀ d n n', day_number d n → day_number d n' → n' = n) ∧ (∀ d d' n, day_number d n → day_number d' n → d' = d).
Proof.
  split; [|split].
  - intros d Hd. eexists. by apply valid_counted.
  - intros d n n' ->%day_number_is ->%day_number_is. done.
  - intros d d' n H H'. apply days_inj; [by eapply number_valid..|]. apply day_number_is in H, H'. congruence.
Qed.
Lemma shows_once o d t d' t' i : time_of_day t → time_of_day t' → shows o d t i → shows o d' t' i → d' = d ∧ t' = t.
Proof.
  destruct t as [[[h m] s] k], t' as [[[h' m'] s'] k']. intros (T1 & T2 & T3) (T1' & T2' & T3') (n & Hn & E & <-) (n' & Hn' & E' & <-).
  assert (n' = n ∧ h' = h ∧ m' = m ∧ s' = s) as (-> & -> & -> & ->) by lia. split; [|done]. by apply (proj2 (proj2 number_once) d d' n).
Qed.
Lemma groups_times ho legacy tz db ns rows ts : pp_import ho legacy tz db ns rows = Ok ts → (∀ r, r ∈ rows → valid_day (pr_date r)) →
  ∃ gs, runs db rows gs ∧ Forall2 (group_result tz) gs ts ∧
    ∀ t g r, (t, g) ∈ gs → r ∈ g → ∃ o, TzModel.abbr_to_tz db (pr_time_zone r) = Some o ∧ shows o (pr_date r) (pr_time r) t.
Proof.
  intros Hi Hd. destruct (c50 _ _ _ _ _ _ _ Hi) as (gs & Hr & _ & Hg). exists gs. split; [done|]. split; [done|]. intros t g r Htg Hrg.
  apply row_time; [|by apply (rn_uniform _ _ _ Hr t g r)]. apply Hd. rewrite <- (rn_all _ _ _ Hr). apply elem_of_list_join. exists g. split; [done|].
  by apply (elem_of_list_fmap_1 snd _ (t, g)).
Qed.

(** The rows of a Nationwide statement, one by one. *)
From Verif Require Import MergeClaims.
From Verif Require Import Base Types SpecBase BaseProofs StrProofs CommentModel Sha1 FingerprintModel NwCsvModel
  CommentClaims FingerprintClaims FingerprintProofs FingerprintLaws ImportClaims ImportProofs.
From Coq Require Import Lia.
Local Open Scope nat_scope.

(** Row [r] is number [i] of its day and yields [t]. *)
Definition row_gives (ho : hash_order) (legacy : bool) (ns name : str) (r : nw_record) (i : nat)
    (t : transaction) : Prop :=
  ∃ p1 p2, rec_form_postings ho r ns name (Z.of_nat i) legacy = Ok (p1, p2) ∧ (Z.of_nat i ≤ I32_MAX)%Z ∧
    t = Transaction None (rec_date r) None None None (rec_description r) [p1; p2].
(** [h]: dates of the rows before, last first. *)
Fixpoint rows_give ho legacy ns name (h : list date) (rs : list nw_record) (ts : list transaction) : Prop :=
  match rs, ts with
  | [], [] => True
  | r :: rs, t :: ts =>
      row_gives ho legacy ns name r (run_length (rec_date r) h) t ∧
      rows_give ho legacy ns name (rec_date r :: h) rs ts
  | _, _ => False
  end.
Definition state_ok (h : list date) (prev : option date) (c : Z) : Prop :=
  match h with
  | [] => prev = None
  | d :: h' => prev = Some d ∧ (Z.of_nat (run_length d h) = c + 1)%Z ∧ (c ≤ I32_MAX)%Z
  end.
Lemma next_counter_spec h prev c d c' : state_ok h prev c →
  next_counter prev c d = Ok c' ↔ c' = Z.of_nat (run_length d h) ∧ (c' ≤ I32_MAX)%Z.
Proof.
  intros Hs. unfold next_counter. destruct h as [|d' h]; cbn [state_ok] in Hs.
  - subst prev. rewrite bool_decide_eq_false_2 by done. split.
    + intros E. apply Ok_inj in E as <-. split; [done|]. unfold I32_MAX. lia.
    + intros [-> _]. done.
  - destruct Hs as (-> & Hc & Hm). cbn [run_length] in *. rewrite decide_True in Hc by done.
    destruct (decide (d' = d)) as [->|Hd].
    + rewrite bool_decide_eq_true_2 by done. destruct (Z.eqb_spec c I32_MAX) as [->|Hne].
      * split; [done|]. intros [-> H]. lia.
      * split.
        { intros E. apply Ok_inj in E as <-. lia. }
        { intros [-> H]. f_equal. lia. }
    + rewrite bool_decide_eq_false_2 by congruence. split.
      * intros E. apply Ok_inj in E as <-. split; [done|]. unfold I32_MAX. lia.
      * intros [-> _]. done.
Qed.
Lemma next_state h prev c d : state_ok h prev c → (Z.of_nat (run_length d h) ≤ I32_MAX)%Z →
  state_ok (d :: h) (Some d) (Z.of_nat (run_length d h)).
Proof. intros Hs Hm. cbn [state_ok run_length]. rewrite decide_True by done. split_and!; [done|lia|done]. Qed.

Lemma process_rows_spec de ho legacy ns name h prev c rows ts : state_ok h prev c →
  process_rows de ho legacy ns name prev c rows = Ok ts ↔
  ∃ rs, Forall2 (λ row r, de row = Ok r) rows rs ∧ rows_give ho legacy ns name h rs ts.
Proof.
  revert h prev c ts. induction rows as [|row rows IH]; intros h prev c ts Hs; cbn [process_rows].
  { split.
    - intros E. apply Ok_inj in E as <-. exists []. split; [constructor|done].
    - intros (rs & H & Hg). inversion H; subst. cbn in Hg. by destruct ts. }
  split.
  - intros (r & Hr & H)%rbind_ok. cbv zeta in H.
    apply rbind_ok in H as (c' & Hc & H). apply (next_counter_spec h) in Hc as [-> Hm]; [|done].
    apply rbind_ok in H as ([p1 p2] & Hp & H). apply rbind_ok in H as (ts' & Hts & H). apply Ok_inj in H as <-.
    apply (IH (rec_date r :: h)) in Hts as (rs & Hrs & Hg); [|by eapply next_state].
    exists (r :: rs). split; [by constructor|]. split; [|done]. exists p1, p2. done.
  - intros (rs & H & Hg). inversion H as [|? r ? rs' Hr Hrs]; subst. destruct ts as [|t ts]; [done|].
    destruct Hg as [(p1 & p2 & Hp & Hm & ->) Hg]. rewrite Hr. cbn [rbind].
    assert (next_counter prev c (rec_date r) = Ok (Z.of_nat (run_length (rec_date r) h))) as -> by (by apply (next_counter_spec h)).
    cbn [rbind]. rewrite Hp. cbn [rbind].
    assert (process_rows de ho legacy ns name (Some (rec_date r)) (Z.of_nat (run_length (rec_date r) h)) rows = Ok ts) as ->.
    { apply (IH (rec_date r :: h)); [by eapply next_state|]. by exists rs'. }
    done.
Qed.

Lemma rows_give_length ho legacy ns name h rs ts : rows_give ho legacy ns name h rs ts → length ts = length rs.
Proof.
  revert h ts. induction rs as [|r rs IH]; intros h [|t ts]; cbn; [done..|]. intros [_ H]. f_equal. by eapply IH.
Qed.
Lemma rows_give_lookup ho legacy ns name h rs ts k r t : rows_give ho legacy ns name h rs ts →
  rs !! k = Some r → ts !! k = Some t →
  row_gives ho legacy ns name r (run_length (rec_date r) (reverse (take k (rec_date <$> rs)) ++ h)) t.
Proof.
  revert h rs ts. induction k as [|k IH]; intros h [|r' rs] [|t' ts] H Hr Ht; try done.
  - destruct H as [H _]. simplify_eq/=. done.
  - destruct H as [_ H]. cbn in Hr, Ht. rewrite fmap_cons. cbn [take]. rewrite reverse_cons, <- (assoc_L (++)).
    by apply (IH _ rs ts).
Qed.
Lemma rows_give_day ho legacy ns name rs ts k r t : rows_give ho legacy ns name [] rs ts →
  rs !! k = Some r → ts !! k = Some t →
  row_gives ho legacy ns name r (day_number (rec_date <$> rs) k) t.
Proof.
  intros H Hr Ht. pose proof (rows_give_lookup _ _ _ _ _ _ _ _ _ _ H Hr Ht) as Hg. rewrite app_nil_r in Hg.
  unfold day_number. by rewrite list_lookup_fmap, Hr.
Qed.

(** ** Days *)
Lemma run_length_app d a b : Forall (λ x, x = d) a → run_length d (a ++ b) = length a + run_length d b.
Proof. induction 1 as [|x a -> H IH]; [done|]. cbn [app run_length length]. rewrite decide_True by done. by rewrite IH. Qed.
Lemma day_number_inj ds i k d : contiguous ds → ds !! i = Some d → ds !! k = Some d →
  day_number ds i = day_number ds k → i = k.
Proof.
  intros Hc. revert i k. cut (∀ i k, i < k → ds !! i = Some d → ds !! k = Some d → day_number ds i ≠ day_number ds k).
  { intros H i k Hi Hk E. destruct (Nat.lt_trichotomy i k) as [Hl|[->|Hl]]; [|done|].
    - by destruct (H i k Hl Hi Hk).
    - by destruct (H k i Hl Hk Hi). }
  intros i k Hl Hi Hk. unfold day_number. rewrite Hi, Hk.
  assert (take k ds = take i ds ++ take (k - i) (drop i ds)) as ->.
  { pose proof (lookup_lt_Some _ _ _ Hk).
    replace k with (i + (k - i)) at 1 by lia. by rewrite <- take_take_drop. }
  rewrite reverse_app, run_length_app.
  - pose proof (lookup_lt_Some _ _ _ Hk). rewrite reverse_length, take_length, drop_length. lia.
  - apply Forall_reverse, Forall_forall. intros x (j & Hj)%elem_of_list_lookup.
    apply lookup_take_Some in Hj as [Hj Hjk]. rewrite lookup_drop in Hj.
    destruct (decide (j = 0)) as [->|Hj0].
    + rewrite Nat.add_0_r in Hj. congruence.
    + assert (ds !! (i + j) = Some d) by (apply (Hc i _ k); [lia|lia|done|done]). congruence.
Qed.

(** ** Whole statements *)
(** What a row is read as. *)
Lemma de_opt_gbp_reads s x : de_opt_gbp s = Ok x ↔ reads_money s x.
Proof.
  unfold reads_money. destruct s as [|c s]; cbn [de_opt_gbp].
  - split; [intros [= <-]; by left|]. intros [[_ ->]|(a & H & _)]; [done|]. by vm_compute in H.
  - destruct (gbp_value (c :: s)) as [a| |]; cbn; split.
    + intros [= <-]. right. by exists a.
    + intros [[? _]|(b & [= ->] & ->)]; done.
    + done.
    + intros [[? _]|(b & ? & ->)]; done.
    + done.
    + intros [[? _]|(b & ? & ->)]; done.
Qed.
Lemma de_date_ok pd s d : de_date pd s = Ok d ↔ pd s = Some d.
Proof. unfold de_date. destruct (pd s); split; by intros [= ->]. Qed.
Lemma five_cells pd row x : de_five pd row = Ok x ↔ ∃ d po pi rest,
  row = d :: r5_transactions x :: r5_location x :: po :: pi :: rest ∧
  pd d = Some (r5_date x) ∧ reads_money po (r5_paid_out x) ∧ reads_money pi (r5_paid_in x).
Proof.
  split.
  - destruct row as [|d [|t [|l [|po [|pi rest]]]]]; try done. cbn [de_five].
    intros (d' & Hd & (po' & Hpo & (pi' & Hpi & H)%rbind_ok)%rbind_ok)%rbind_ok. apply Ok_inj in H. subst x.
    exists d, po, pi, rest. split_and!; [done|by apply de_date_ok|by apply de_opt_gbp_reads|by apply de_opt_gbp_reads].
  - intros (d & po & pi & rest & -> & Hd%de_date_ok & Hpo%de_opt_gbp_reads & Hpi%de_opt_gbp_reads). cbn [de_five].
    rewrite Hd, Hpo, Hpi. by destruct x.
Qed.
Lemma six_cells pd row x : de_six pd row = Ok x ↔ ∃ d po pi b rest,
  row = d :: r6_type x :: r6_description x :: po :: pi :: b :: rest ∧
  pd d = Some (r6_date x) ∧ reads_money po (r6_paid_out x) ∧ reads_money pi (r6_paid_in x) ∧
  gbp_value b = Ok (r6_balance x).
Proof.
  split.
  - destruct row as [|d [|t [|l [|po [|pi [|b rest]]]]]]; try done. cbn [de_six].
    intros (d' & Hd & (po' & Hpo & (pi' & Hpi & (b' & Hb & H)%rbind_ok)%rbind_ok)%rbind_ok)%rbind_ok. apply Ok_inj in H. subst x.
    exists d, po, pi, b, rest. split_and!; [done|by apply de_date_ok|by apply de_opt_gbp_reads|by apply de_opt_gbp_reads|done].
  - intros (d & po & pi & b & rest & -> & Hd%de_date_ok & Hpo%de_opt_gbp_reads & Hpi%de_opt_gbp_reads & Hb). cbn [de_six].
    rewrite Hd, Hpo, Hpi, Hb. by destruct x.
Qed.
Lemma read_row_five pd row r : read_row pd FiveColumns row r ↔ rmap Five (de_five pd row) = Ok r.
Proof.
  split.
  - destruct r as [x|x]; [|done]. intros H%five_cells. by rewrite H.
  - destruct (de_five pd row) as [x| |] eqn:E; cbn [rmap]; [|done|done]. intros H. apply Ok_inj in H as <-. by apply five_cells.
Qed.
Lemma read_row_six pd row r : read_row pd SixColumns row r ↔ rmap Six (de_six pd row) = Ok r.
Proof.
  split.
  - destruct r as [x|x]; [done|]. intros H%six_cells. by rewrite H.
  - destruct (de_six pd row) as [x| |] eqn:E; cbn [rmap]; [|done|done]. intros H. apply Ok_inj in H as <-. by apply six_cells.
Qed.
Lemma str_eqb_ok a b : str_eqb a b = true ↔ a = b.
Proof. unfold str_eqb. by rewrite bool_decide_eq_true. Qed.
Lemma account_name_ok n name : account_name_record n = Ok name ↔ ∃ rest, n = s2l "Account Name:" :: name :: rest.
Proof.
  split.
  - destruct n as [|h [|x rest]]; cbn [account_name_record]; [done|done|]. unfold check_header.
    destruct (str_eqb _ h) eqn:E; cbn [rbind]; [|done]. intros H. apply Ok_inj in H as <-. apply str_eqb_ok in E as <-. by exists rest.
  - intros (rest & ->). cbn [account_name_record]. unfold check_header.
    by rewrite (proj2 (str_eqb_ok _ _) eq_refl).
Qed.
Lemma quantity_ok w r : quantity_record w r = Ok () ↔ ∃ v x rest, r = w :: v :: rest ∧ gbp_value v = Ok x.
Proof.
  split.
  - destruct r as [|h [|v rest]]; cbn [quantity_record]; [done|done|]. intros (x & Hx & H)%rbind_ok. unfold check_header in H.
    destruct (str_eqb _ h) eqn:E; [|done]. apply str_eqb_ok in E as <-. by exists v, x, rest.
  - intros (v & x & rest & -> & H). cbn [quantity_record]. rewrite H. cbn [rbind]. unfold check_header.
    by rewrite (proj2 (str_eqb_ok _ _) eq_refl).
Qed.
Lemma header_inj l l' : header_of l = header_of l' → l = l'.
Proof. by destruct l, l'. Qed.
Lemma process_file_spec pd ho o ns name records ts :
  process_file pd ho o ns name records = Ok ts ↔
  ∃ l rows rs, records = header_of l :: rows ∧ Forall2 (read_row pd l) rows rs ∧
    rows_give ho (nw_legacy o) ns name [] rs ts.
Proof.
  assert (state_ok [] None 0) as Hs by done.
  destruct records as [|h rows]; cbn [process_file].
  { split; [done|]. by intros (?&?&?&?&_). }
  split.
  - case_bool_decide as E1; [|case_bool_decide as E2; [|done]].
    + intros (rs & Hrs & Hg)%(process_rows_spec _ _ _ _ _ [] None); [|done].
      exists FiveColumns, rows, rs. split_and!; [by rewrite E1| |done].
      eapply Forall2_impl; [exact Hrs|]. intros row r. by rewrite read_row_five.
    + intros (rs & Hrs & Hg)%(process_rows_spec _ _ _ _ _ [] None); [|done].
      exists SixColumns, rows, rs. split_and!; [by rewrite E2| |done].
      eapply Forall2_impl; [exact Hrs|]. intros row r. by rewrite read_row_six.
  - intros (l & rows' & rs & [= -> ->] & Hrs & Hg). destruct l.
    + rewrite bool_decide_eq_true_2 by done. apply (process_rows_spec _ _ _ _ _ [] None); [done|].
      exists rs. split; [|done]. eapply Forall2_impl; [exact Hrs|]. intros row r. by rewrite read_row_five.
    + rewrite bool_decide_eq_false_2 by done. rewrite bool_decide_eq_true_2 by done.
      apply (process_rows_spec _ _ _ _ _ [] None); [done|].
      exists rs. split; [|done]. eapply Forall2_impl; [exact Hrs|]. intros row r. by rewrite read_row_six.
Qed.

Definition preamble_ok (o : nw_opts) (n b a : csv_record) (name ns : str) : Prop :=
  account_name_record n = Ok name ∧ quantity_record (s2l "Account Balance:") b = Ok () ∧
  quantity_record (s2l "Available Balance:") a = Ok () ∧ make_namespace (nw_fp_ns o) name = Ok ns.
Lemma import_spec pd ho o records ns ts :
  nw_csv_import pd ho o records = Ok (ns, ts) ↔
  ∃ n b a l rows name rs, records = n :: b :: a :: header_of l :: rows ∧ preamble_ok o n b a name ns ∧
    Forall2 (read_row pd l) rows rs ∧ rows_give ho (nw_legacy o) ns name [] rs ts.
Proof.
  split.
  - unfold nw_csv_import. destruct records as [|n [|b [|a rest]]]; [done..|].
    intros (name & Hn & H)%rbind_ok. apply rbind_ok in H as ([] & Hb & H). apply rbind_ok in H as ([] & Ha & H).
    apply rbind_ok in H as (ns' & Hns & H). apply rbind_ok in H as (ts' & Hts & H).
    apply Ok_pair_inj in H as [-> ->]. apply process_file_spec in Hts as (l & rows & rs & -> & Hrs & Hg).
    by exists n, b, a, l, rows, name, rs.
  - intros (n & b & a & l & rows & name & rs & -> & (H1 & H2 & H3 & H4) & Hrs & Hg). unfold nw_csv_import.
    rewrite H1. cbn [rbind]. rewrite H2. cbn [rbind]. rewrite H3. cbn [rbind]. rewrite H4. cbn [rbind].
    assert (process_file pd ho o ns name (header_of l :: rows) = Ok ts) as ->; [|done].
    apply process_file_spec. by exists l, rows, rs.
Qed.
Lemma preamble_fun o n b a name ns name' ns' :
  preamble_ok o n b a name ns → preamble_ok o n b a name' ns' → name = name' ∧ ns = ns'.
Proof. intros (H1&_&_&H2) (H3&_&_&H4). simplify_eq. split; congruence. Qed.
Lemma read_row_fun pd l row r r' : read_row pd l row r → read_row pd l row r' → r = r'.
Proof. destruct l; [rewrite !read_row_five|rewrite !read_row_six]; congruence. Qed.
Lemma reads_fun pd l rows rs rs' : Forall2 (read_row pd l) rows rs → Forall2 (read_row pd l) rows rs' → rs = rs'.
Proof.
  intros H. revert rs'. induction H as [|row r rows rs Hr H IH]; intros rs' H'; inversion H'; subst; [done|].
  f_equal; [by eapply read_row_fun|by apply IH].
Qed.
Lemma statement_fun pd records name rs name' rs' :
  statement_reads pd records name rs → statement_reads pd records name' rs' → name = name' ∧ rs = rs'.
Proof.
  intros (n & b & a & l & rows & -> & H) (n' & b' & a' & l' & rows' & E & H').
  apply cons_inj in E as [E1 E]. apply cons_inj in E1 as [_ E1]. apply cons_inj in E1 as [-> _].
  do 2 (apply cons_inj in E as [_ E]). apply cons_inj in E as [->%header_inj ->].
  split; [done|]. by eapply reads_fun.
Qed.
Lemma import_reads pd ho o records ns ts : nw_csv_import pd ho o records = Ok (ns, ts) →
  ∃ name rs, statement_reads pd records name rs ∧ make_namespace (nw_fp_ns o) name = Ok ns ∧
    rows_give ho (nw_legacy o) ns name [] rs ts.
Proof.
  intros (n & b & a & l & rows & name & rs & -> & (H1 & H2 & H3 & H4) & Hrs & Hg)%import_spec.
  apply account_name_ok in H1 as (rest & ->).
  exists name, rs. split_and!; [|done|done]. by exists rest, b, a, l, rows.
Qed.

(** ** Prefixes and concatenation *)
Lemma rows_give_app ho legacy ns name h rs1 rs2 ts :
  rows_give ho legacy ns name h (rs1 ++ rs2) ts ↔
  ∃ ts1 ts2, ts = ts1 ++ ts2 ∧ rows_give ho legacy ns name h rs1 ts1 ∧
    rows_give ho legacy ns name (reverse (rec_date <$> rs1) ++ h) rs2 ts2.
Proof.
  revert h ts. induction rs1 as [|r rs1 IH]; intros h ts; cbn [app rows_give].
  - split.
    + intros H. by exists [], ts.
    + intros (ts1 & ts2 & -> & H1 & H2). by destruct ts1.
  - rewrite fmap_cons, reverse_cons, <- (assoc_L (++)). split.
    + destruct ts as [|t ts]; [done|]. intros [H1 (ts1 & ts2 & -> & H2 & H3)%IH]. by exists (t :: ts1), ts2.
    + intros ([|t ts1] & ts2 & -> & H1 & H2); [done|]. destruct H1 as [H1 H1']. cbn [app]. split; [done|].
      apply IH. by exists ts1, ts2.
Qed.
Lemma run_length_sep d g h d0 : last g = Some d0 → head h ≠ Some d0 → run_length d (g ++ h) = run_length d g.
Proof.
  intros Hl Hh. induction g as [|x g IH]; [done|]. cbn [app run_length]. destruct (decide (x = d)) as [->|]; [|done].
  f_equal. destruct g as [|y g]; [|apply IH; by rewrite last_cons_cons in Hl].
  cbn in Hl. injection Hl as ->. cbn [app]. destruct h as [|z h]; [done|]. cbn [run_length]. rewrite decide_False; [done|].
  intros ->. done.
Qed.
Lemma rows_give_sep ho legacy ns name g h rs ts :
  head (reverse (rec_date <$> rs) ++ g) = None ∨
    (∃ d0, last (reverse (rec_date <$> rs) ++ g) = Some d0 ∧ head h ≠ Some d0) →
  rows_give ho legacy ns name (g ++ h) rs ts ↔ rows_give ho legacy ns name g rs ts.
Proof.
  revert g ts. induction rs as [|r rs IH]; intros g ts H; [done|]. destruct ts as [|t ts]; [done|].
  cbn [rows_give]. rewrite fmap_cons, reverse_cons, <- (assoc_L (++)) in H.
  change (rec_date r :: g ++ h) with ((rec_date r :: g) ++ h). rewrite IH by done.
  assert (run_length (rec_date r) (g ++ h) = run_length (rec_date r) g) as ->; [|done].
  destruct H as [H|(d0 & H & Hh)].
  - exfalso. destruct (reverse (rec_date <$> rs)); done.
  - rewrite last_app in H. destruct g as [|x g].
    + cbn [app] in *. cbn in H. injection H as ->. destruct h as [|z h]; [done|]. cbn [run_length].
      rewrite decide_False; [done|]. intros ->. done.
    + apply (run_length_sep _ _ _ d0); [|done]. change ([rec_date r] ++ x :: g) with (rec_date r :: x :: g) in H. rewrite last_cons_cons in H.
      destruct (last (x :: g)) as [y|] eqn:E; [done|by apply last_None in E].
Qed.
Lemma rows_give_dates ho legacy ns name h rs ts : rows_give ho legacy ns name h rs ts → t_date <$> ts = rec_date <$> rs.
Proof.
  revert h ts. induction rs as [|r rs IH]; intros h [|t ts]; cbn [rows_give]; [done..|].
  intros [(p1 & p2 & _ & _ & ->) H]. rewrite !fmap_cons. f_equal. by eapply IH.
Qed.

Lemma import_prefix pd ho o hd xs ys ns ts : length hd = 4 →
  nw_csv_import pd ho o (hd ++ xs ++ ys) = Ok (ns, ts) →
  ∃ ts1 ts2, ts = ts1 ++ ts2 ∧ length ts1 = length xs ∧ nw_csv_import pd ho o (hd ++ xs) = Ok (ns, ts1).
Proof.
  intros Hl (n & b & a & l & rows & name & rs & E & Hp & Hrs & Hg)%import_spec.
  do 4 (destruct hd as [|? hd]; [done|]). destruct hd; [|done]. cbn [app] in *.
  do 4 (apply cons_inj in E as [-> E]). subst rows.
  apply Forall2_app_inv_l in Hrs as (rs1 & rs2 & H1 & H2 & ->).
  apply rows_give_app in Hg as (ts1 & ts2 & -> & G1 & G2).
  exists ts1, ts2. split_and!; [done| |].
  - rewrite (rows_give_length _ _ _ _ _ _ _ G1). symmetry. by eapply Forall2_length.
  - apply import_spec. by exists n, b, a, l, xs, name, rs1.
Qed.
Lemma import_append pd ho o hd xs ys ns ts1 ts2 : length hd = 4 →
  nw_csv_import pd ho o (hd ++ xs) = Ok (ns, ts1) → nw_csv_import pd ho o (hd ++ ys) = Ok (ns, ts2) →
  (∀ t1 t2, last ts1 = Some t1 → head ts2 = Some t2 → t_date t1 ≠ t_date t2) →
  nw_csv_import pd ho o (hd ++ xs ++ ys) = Ok (ns, ts1 ++ ts2).
Proof.
  intros Hl H1 H2 Hd.
  apply import_spec in H1 as (n & b & a & l & rows & name & rs & E & Hp & Hrs & Hg).
  apply import_spec in H2 as (n' & b' & a' & l' & rows' & name' & rs' & E' & Hp' & Hrs' & Hg').
  do 4 (destruct hd as [|? hd]; [done|]). destruct hd; [|done]. cbn [app] in *.
  do 4 (apply cons_inj in E as [-> E]). do 3 (apply cons_inj in E' as [-> E']).
  apply cons_inj in E' as [->%header_inj E']. subst rows rows'.
  destruct (preamble_fun _ _ _ _ _ _ _ _ Hp Hp') as [<- _].
  apply import_spec. exists n', b', a', l', (xs ++ ys), name, (rs ++ rs').
  split_and!; [done|done|by apply Forall2_app|]. apply rows_give_app. exists ts1, ts2. split_and!; [done|done|].
  rewrite app_nil_r. apply (rows_give_sep _ _ _ _ []); [|done]. rewrite app_nil_r.
  pose proof (rows_give_dates _ _ _ _ _ _ _ Hg) as D. pose proof (rows_give_dates _ _ _ _ _ _ _ Hg') as D'.
  rewrite <- D, <- D'. destruct ts2 as [|t2 ts2]; [by left|]. right. exists (t_date t2). split.
  - rewrite fmap_cons, reverse_cons, last_snoc. done.
  - change (head (reverse (t_date <$> ts1)) ≠ Some (t_date t2)).
    destruct ts1 as [|t1 ts1 _] using rev_ind; [done|]. rewrite fmap_app, reverse_app. change (Some (t_date t1) ≠ Some (t_date t2)).
    intros [= Et]. apply (Hd t1 t2); [by rewrite last_snoc|done|done].
Qed.

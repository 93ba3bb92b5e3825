(** Tables of PDF statements: from recognised words to lines. *)
From Verif Require Import MergeClaims.
From Verif Require Import Base Types SpecBase BaseProofs StrProofs CommentModel Sha1 FingerprintModel NwCsvModel PaypalModel
  CommentClaims FingerprintClaims ImportClaims OcrModel PdfModel PdfClaims.
From Coq Require Import Lia.
Local Open Scope nat_scope.

(** ** Cells *)
Lemma overlaps_spec b w : overlaps b (horiz_bounds w) = true ↔ (wd_left w < bo_max b ∧ bo_min b < wd_left w + wd_width w)%Z.
Proof. unfold overlaps, horiz_bounds. cbn [bo_min bo_max]. by rewrite andb_true_iff, !Z.ltb_lt. Qed.
Lemma collect_spec b l : collect_words_in b l = cell_words b l.
Proof. unfold collect_words_in, cell_words. f_equal. apply list_filter_iff. intros w. apply overlaps_spec. Qed.
Lemma join_words_spec b l : join_words_in b l = opt_cell b l.
Proof.
  unfold join_words_in, opt_cell, cell. rewrite collect_spec. destruct (join _ _) as [|x s]; [by rewrite decide_True|by rewrite decide_False].
Qed.

(** ** Headers *)
Lemma seqb a b : str_eqb a b = true ↔ a = b.
Proof. unfold str_eqb. apply bool_decide_eq_true. Qed.
Lemma find_in_line_spec idx l c : find_in_line idx l = Some c ↔ is_header l c ∧ co_header c = idx.
Proof.
  unfold find_in_line, is_header. split.
  - destruct (ln_words l) as [|w0 [|w1 [|w2 [|w3 [|w4 rest]]]]]; try done.
    destruct (_ && _) eqn:E; [|done]. rewrite !andb_true_iff, !seqb in E. destruct E as ((((E0&E1)&E2)&E3)&E4).
    intros [= <-]. split; [|done]. exists w0, w1, w2, w3, w4, rest. split; [done|]. cbn [fmap list_fmap].
    rewrite E0, E1, E2, E3, E4. done.
  - intros [(w0 & w1 & w2 & w3 & w4 & rest & -> & Ht & H1 & H2 & H3 & H4 & H5) H6]. cbn [fmap list_fmap] in Ht.
    injection Ht as E0 E1 E2 E3 E4. rewrite !(proj2 (seqb _ _)) by done. cbn [andb].
    destruct c. cbn in *. by subst.
Qed.
Lemma is_header_idx l c i : is_header l c → is_header l (Columns i (co_date c) (co_details c) (co_payments c) (co_receipts c) (co_balance c)).
Proof. done. Qed.
Lemma find_in_line_none idx l : find_in_line idx l = None ↔ ∀ c, ¬ is_header l c.
Proof.
  split.
  - intros H c Hc. apply (is_header_idx _ _ idx) in Hc.
    assert (find_in_line idx l = Some _) as E by (by apply find_in_line_spec; split; [exact Hc|]). congruence.
  - intros H. destruct (find_in_line idx l) as [c|] eqn:E; [|done]. apply find_in_line_spec in E as [E _]. by apply H in E.
Qed.
Lemma find_in_lines_spec i ls c : find_in_lines i ls = Some c ↔
  ∃ above h below, ls = above ++ h :: below ∧ is_header h c ∧ co_header c = i + length above ∧ ∀ l c', l ∈ above → ¬ is_header l c'.
Proof.
  revert i. induction ls as [|l ls IH]; intros i; cbn [find_in_lines].
  - split; [done|]. by intros ([|??] & ? & ? & ? & _).
  - destruct (find_in_line i l) as [c0|] eqn:E.
    + apply find_in_line_spec in E as E'. destruct E' as [Eh Ei]. split.
      * intros [= <-]. exists [], l, ls. split_and!; [done|done|cbn; lia|]. intros l' c' Hl. by apply elem_of_nil in Hl.
      * intros ([|a above] & h & below & Heq & Hh & Hc & Ha).
        -- injection Heq as <- <-. rewrite <- E. apply find_in_line_spec. split; [done|]. cbn in Hc. lia.
        -- injection Heq as <- ->. destruct (Ha l c0); [left|done].
    + rewrite IH. pose proof (proj1 (find_in_line_none i l) E) as En. split.
      * intros (above & h & below & -> & Hh & Hc & Ha). exists (l :: above), h, below. split_and!; [done|done|cbn; lia|].
        intros l' c' [->|Hl]%elem_of_cons; [apply En|by apply Ha].
      * intros ([|a above] & h & below & Heq & Hh & Hc & Ha); [injection Heq as <- <-; by apply En in Hh|].
        injection Heq as <- ->. exists above, h, below. split_and!; [done|done|cbn in Hc; lia|]. intros l' c' Hl. apply Ha. by right.
Qed.
(** The table of a paragraph. *)
Definition tab_lines (t : pdf_table) : list line := drop (S (co_header (tb_columns t))) (pa_lines (tb_para t)).
Lemma find_table p c : find_in_paragraph p = Some c → table_in p c (tab_lines (Table c p)).
Proof.
  intros (above & h & below & Hp & Hh & Hc & Ha)%find_in_lines_spec. exists above, h. split; [|done]. unfold tab_lines. cbn [tb_columns tb_para].
  rewrite Hp, Hc. rewrite drop_app_ge by (cbn; lia). by replace (S (0 + length above) - length above) with 1 by lia.
Qed.
Lemma find_table_none p : find_in_paragraph p = None → ∀ c ls, ¬ table_in p c ls.
Proof.
  intros H c ls (above & h & Hp & Hh & Ha).
  assert (find_in_paragraph p = Some (Columns (length above) (co_date c) (co_details c) (co_payments c) (co_receipts c) (co_balance c))) as E; [|congruence].
  apply find_in_lines_spec. exists above, h, ls. done.
Qed.
Lemma is_header_fun l c c' : is_header l c → is_header l c' →
  (co_date c, co_details c, co_payments c, co_receipts c, co_balance c) = (co_date c', co_details c', co_payments c', co_receipts c', co_balance c').
Proof.
  intros (w0 & w1 & w2 & w3 & w4 & rest & E & _ & -> & -> & -> & -> & ->) (v0 & v1 & v2 & v3 & v4 & rest' & E' & _ & -> & -> & -> & -> & ->).
  rewrite E in E'. by injection E' as <- <- <- <- <- <-.
Qed.
Lemma table_in_fun p c ls c' ls' : table_in p c ls → table_in p c' ls' →
  ls = ls' ∧ (co_date c, co_details c, co_payments c, co_receipts c, co_balance c) = (co_date c', co_details c', co_payments c', co_receipts c', co_balance c').
Proof.
  intros (a & h & E & Hh & Ha) (a' & h' & E' & Hh' & Ha'). rewrite E in E'.
  assert (∀ a a' : list line, a ++ h :: ls = a' ++ h' :: ls' → (∀ l, l ∈ a → l ≠ h') → (∀ l, l ∈ a' → l ≠ h) → h = h' ∧ ls = ls') as G.
  { clear. induction a as [|x a IH]; intros [|x' a'] E H1 H2; cbn in E.
    - by injection E as -> ->.
    - injection E as -> _. destruct (H2 x'); [left|done].
    - injection E as -> _. destruct (H1 h'); [left|done].
    - injection E as -> E. apply (IH a' E); [intros l Hl; apply H1; by right|intros l Hl; apply H2; by right]. }
  apply G in E' as [-> ->].
  - split; [done|]. by eapply is_header_fun.
  - intros l Hl ->. by apply (Ha _ _ Hl) in Hh'.
  - intros l Hl ->. by apply (Ha' _ _ Hl) in Hh.
Qed.

(** ** Dates *)
(** ** The calendar *)
Lemma mod_divide_eq (k y : Z) : (0 < k)%Z → (y mod k =? 0)%Z = true ↔ (k | y)%Z.
Proof. intros H. rewrite Z.eqb_eq. apply Z.mod_divide. lia. Qed.
Lemma leap_year_spec y : leap_year y = true ↔ leap y.
Proof.
  unfold leap_year, leap. rewrite andb_true_iff, orb_true_iff, negb_true_iff, (mod_divide_eq 4), (mod_divide_eq 400) by lia.
  assert ((y mod 100 =? 0)%Z = false ↔ ¬ (100 | y)%Z) as ->.
  { rewrite <- mod_divide_eq by lia. by rewrite not_true_iff_false. }
  destruct (Znumtheory.Zdivide_dec 100 y); naive_solver.
Qed.
Lemma valid_date_days y m d : valid_date y m d ↔ (1 ≤ d ≤ month_days y m)%N.
Proof.
  unfold valid_date. split.
  - intros ([Hm1 Hm2] & Hd & H). split; [done|].
    assert (m = 1 ∨ m = 2 ∨ m = 3 ∨ m = 4 ∨ m = 5 ∨ m = 6 ∨ m = 7 ∨ m = 8 ∨ m = 9 ∨ m = 10 ∨ m = 11 ∨ m = 12)%N as Hm by lia.
    destruct H as [H|[(-> & -> & Hl)|[[Hn H]|[Hin ->]]]].
    + destruct Hm as [ -> | [ -> | [ -> | [ -> | [ -> | [ -> | [ -> | [ -> | [ -> | [ -> | [ -> | ->]]]]]]]]]]]; cbn [month_days]; try lia. destruct (leap_year y); lia.
    + apply leap_year_spec in Hl. cbn [month_days]. rewrite Hl. lia.
    + destruct Hm as [ -> | [ -> | [ -> | [ -> | [ -> | [ -> | [ -> | [ -> | [ -> | [ -> | [ -> | ->]]]]]]]]]]]; cbn [month_days]; try lia; done.
    + rewrite !elem_of_cons, elem_of_nil in Hin. destruct Hin as [ -> | [ -> | [ -> | [ -> | [ -> | [ -> | [ -> | []]]]]]]]; cbn [month_days]; lia.
  - intros [Hd Hm].
    assert (m = 1 ∨ m = 2 ∨ m = 3 ∨ m = 4 ∨ m = 5 ∨ m = 6 ∨ m = 7 ∨ m = 8 ∨ m = 9 ∨ m = 10 ∨ m = 11 ∨ m = 12)%N as Hc.
    { unfold month_days in Hm. repeat case_match; lia. }
    split; [lia|]. split; [done|]. rewrite !elem_of_cons, elem_of_nil.
    destruct (leap_year y) eqn:El; [apply leap_year_spec in El|];
      destruct Hc as [ -> | [ -> | [ -> | [ -> | [ -> | [ -> | [ -> | [ -> | [ -> | [ -> | [ -> | ->]]]]]]]]]]]; cbn [month_days] in Hm; rewrite ?El in Hm; try lia.
    + apply leap_year_spec in El as El'. rewrite El' in Hm. destruct (decide (d = 29)%N) as [ ->|]; [|lia]. right. left. done.
Qed.

Section dates.
  Context (E : pdf_env) (c : columns) (all : list line).
  Definition date_before (k : nat) (dt : date) : Prop :=
    ∃ j, j < k ∧ date_given E c all j dt ∧ ∀ i l', j < i → i < k → all !! i = Some l' → length (date_cell c l') ≠ 2.
  Lemma date_at_before k dt : date_at E c all k dt ↔ date_before (S k) dt.
  Proof.
    split; intros (j & Hj & Hg & Hi); exists j; (split; [lia|]; split; [done|]); intros i l' ??; apply Hi; lia.
  Qed.
  Lemma year_same k l y : all !! k = Some l → length (date_cell c l) ≠ 1 → year_at E c all (S k) y ↔ year_at E c all k y.
  Proof.
    intros Hl Hn. split.
    - intros (i & l0 & w & Hi & Hl0 & Hw & Hy & Hj). destruct (decide (i = k)) as [->|].
      { rewrite Hl in Hl0. injection Hl0 as <-. by rewrite Hw in Hn. }
      exists i, l0, w. split_and!; [lia|done..|]. intros j l' ??. apply Hj; lia.
    - intros (i & l0 & w & Hi & Hl0 & Hw & Hy & Hj). exists i, l0, w. split_and!; [lia|done..|]. intros j l' ?? Hl'.
      destruct (decide (j = k)) as [->|]; [congruence|]. apply (Hj j); [lia|lia|done].
  Qed.
  Lemma year_new k l w y y' : all !! k = Some l → date_cell c l = [w] → pe_year E w = Some y → year_at E c all (S k) y' ↔ y' = y.
  Proof.
    intros Hl Hw Hy. split.
    - intros (i & l0 & w' & Hi & Hl0 & Hw' & Hy' & Hj). destruct (decide (i = k)) as [->|].
      + simplify_eq/=. congruence.
      + destruct (Hj k l); [lia|lia|done|]. by rewrite Hw.
    - intros ->. exists k, l, w. split_and!; [lia|done..|]. intros j l' ??. lia.
  Qed.
  Lemma date_same k l dt : all !! k = Some l → length (date_cell c l) ≠ 2 → date_before (S k) dt ↔ date_before k dt.
  Proof.
    intros Hl Hn. split.
    - intros (j & Hj & Hg & Hi). destruct (decide (j = k)) as [->|].
      { destruct Hg as (l0 & day & mon & ? & ? & ? & Hl0 & Hd & _). simplify_eq/=. by rewrite Hd in Hn. }
      exists j. split_and!; [lia|done|]. intros i l' ??. apply Hi; lia.
    - intros (j & Hj & Hg & Hi). exists j. split_and!; [lia|done|]. intros i l' ?? Hl'. destruct (decide (i = k)) as [->|]; [congruence|]. apply (Hi i); [lia|lia|done].
  Qed.
  Lemma date_new k l dt dt' : all !! k = Some l → length (date_cell c l) = 2 → date_given E c all k dt →
    (∀ dt', date_given E c all k dt' → dt' = dt) → date_before (S k) dt' ↔ dt' = dt.
  Proof.
    intros Hl Hn Hg Hu. split.
    - intros (j & Hj & Hg' & Hi). destruct (decide (j = k)) as [->|]; [by apply Hu|].
      by destruct (Hi k l); [lia|lia|done|].
    - intros ->. exists k. split_and!; [lia|done|]. intros i l' ??. lia.
  Qed.

  Lemma from_ymd_ok y m d dt : from_ymd y m d = Ok dt ↔ valid_date y m d ∧ dt = (y, m, d).
  Proof.
    unfold from_ymd. rewrite valid_date_days. split.
    - destruct (_ && _)%bool eqn:B; [|done]. rewrite andb_true_iff, !N.leb_le in B. by intros [= <-].
    - intros [[H1 H2] ->]. by rewrite (proj2 (N.leb_le _ _) H1), (proj2 (N.leb_le _ _) H2).
  Qed.

  Lemma read_table_spec ls k year d rs : drop k all = ls →
    (∀ y, year = Some y ↔ year_at E c all k y) → (∀ dt, d = Some dt ↔ date_before k dt) →
    read_table_lines E c year d ls = Ok rs ↔
    (∀ i l, ls !! i = Some l → date_readable E c all (k + i) l) ∧
    Forall2 (λ kl, line_read E c all kl.1 kl.2) (filter (λ kl, line_kept c kl.2) (imap (λ i, pair (k + i)) ls)) rs.
  Proof.
    revert k year d rs. induction ls as [|l ls IH]; intros k year d rs Hall Hy Hd; cbn [read_table_lines].
    { split.
      - intros [= <-]. split; [done|constructor].
      - intros [_ H]. cbn in H. by apply Forall2_nil_inv_l in H as ->. }
    assert (all !! k = Some l) as Hl.
    { rewrite <- (Nat.add_0_r k), <- lookup_drop, Hall. done. }
    assert (drop (S k) all = ls) as Hall'.
    { rewrite <- Nat.add_1_r, <- drop_drop, Hall. done. }
    assert (∀ R : nat → line → Prop, (∀ i l', (l :: ls) !! i = Some l' → R (k + i) l') ↔ R k l ∧ ∀ i l', ls !! i = Some l' → R (S k + i) l') as Hcons.
    { intros R. split.
      - intros H. split; [rewrite <- (Nat.add_0_r k); by apply H|]. intros i l' Hi. replace (S k + i) with (k + S i) by lia. by apply H.
      - intros [H1 H2] [|i] l' Hi; [injection Hi as <-; by rewrite Nat.add_0_r|]. replace (k + S i) with (S k + i) by lia. by apply H2. }
    rewrite (Hcons (λ i l', date_readable E c all i l')). cbn [imap]. rewrite filter_cons. cbn [snd]. rewrite Nat.add_0_r.
    assert (imap ((λ i, pair (k + i)) ∘ S) ls = imap (λ i, pair (S k + i)) ls) as ->.
    { apply imap_ext. intros i x _. cbn. f_equal. lia. }
    set (P0 := λ rs, Forall2 (λ kl : nat * line, line_read E c all kl.1 kl.2) (filter (λ kl, line_kept c kl.2) (imap (λ i, pair (S k + i)) ls)) rs) in *.
    set (P1 := ∀ i l', ls !! i = Some l' → date_readable E c all (S k + i) l') in *.
    (* a line that may hold a transaction *)
    assert (∀ year' d', (∀ y, year' = Some y ↔ year_at E c all (S k) y) → (∀ dt, d' = Some dt ↔ date_before (S k) dt) →
      length (date_cell c l) ≠ 1 →
      (let! rest := read_table_lines E c year' d' ls in
        match join_words_in (co_details c) l with
        | None => Ok rest
        | Some detail => Ok (TrnLine d' detail (join_words_in (co_payments c) l) (join_words_in (co_receipts c) l)
                    (join_words_in (co_balance c) l) (ln_top l) (ln_height l) :: rest)
        end) = Ok rs ↔ P1 ∧ Forall2 (λ kl : nat * line, line_read E c all kl.1 kl.2)
         (if decide (line_kept c l) then (k, l) :: filter (λ kl, line_kept c kl.2) (imap (λ i, pair (S k + i)) ls)
          else filter (λ kl, line_kept c kl.2) (imap (λ i, pair (S k + i)) ls)) rs) as Hkeep.
    { intros year' d' Hy' Hd' Hn. rewrite rbind_ok. rewrite !join_words_spec. unfold opt_cell at 1. 
      setoid_rewrite (λ rest, IH (S k) year' d' rest Hall' Hy' Hd'). fold P1. 
      destruct (decide (cell (co_details c) l = [])) as [Hc|Hc].
      - rewrite decide_False by (intros [_ ?]; done). fold (P0 rs). split.
        + by intros (rest & [H1 H2] & [= <-]).
        + intros [H1 H2]. exists rs. done.
      - rewrite decide_True by done. split.
        + intros (rest & [H1 H2] & [= <-]). split; [done|]. constructor; [|done]. cbn. split_and!; [|done..].
          intros dt. cbn. rewrite Hd'. symmetry. apply date_at_before.
        + intros [H1 (r & rest & Hr & HF & ->)%Forall2_cons_inv_l]. exists rest. split; [done|]. f_equal. f_equal.
          destruct Hr as (Hr0 & Hr1 & Hr2 & Hr3 & Hr4 & Hr5 & Hr6). cbn [fst snd] in *. destruct r; cbn in *. subst. f_equal.
          apply option_eq. intros dt. rewrite Hd', Hr0. symmetry. apply date_at_before. }
    unfold update_date_from_line. rewrite collect_spec. fold (date_cell c l).
    destruct (date_cell c l) as [|w0 [|w1 [|w2 ws]]] eqn:Hcell.
    - cbn [rbind]. rewrite Hkeep.
      + unfold date_readable at 1. rewrite Hcell. naive_solver.
      + intros y. rewrite (year_same k l) by (done || by rewrite Hcell). apply Hy.
      + intros dt. rewrite (date_same k l) by (done || by rewrite Hcell). apply Hd.
      + done.
    - assert (¬ line_kept c l) as Hnk by (intros [Hk _]; by rewrite Hcell in Hk). rewrite decide_False by done.
      assert (date_readable E c all k l ↔ ∃ y, pe_year E w0 = Some y ∧ (1980 ≤ y ≤ 2100)%Z) as ->.
      { unfold date_readable. rewrite Hcell. split.
        - intros [?|[(w & y & [= <-] & Hw)|(dt & l0 & day & mon & ? & ? & ? & Hl0 & Hd0 & _)]]; [done|eauto|]. simplify_eq/=. congruence.
        - intros (y & H). right. left. eauto. }
      destruct (pe_year E w0) as [y|] eqn:Ey; [|cbn; naive_solver].
      destruct (_ && _)%bool eqn:B.
      + rewrite andb_true_iff, !Z.leb_le in B. unfold EARLIEST_YEAR, LATEST_YEAR in B. cbn [rbind].
        transitivity (read_table_lines E c (Some y) d ls = Ok rs).
        { destruct (read_table_lines E c (Some y) d ls); done. }
        rewrite (IH (S k)).
        * fold P1. naive_solver.
        * done.
        * intros y'. rewrite (year_new k l w0 y y' Hl Hcell Ey). naive_solver.
        * intros dt. rewrite (date_same k l) by (done || by rewrite Hcell). apply Hd.
      + split; [done|]. intros [[(y' & [= <-] & Hr) _] _]. rewrite andb_false_iff, !Z.leb_gt in B. unfold EARLIEST_YEAR, LATEST_YEAR in B. lia.
    - assert (date_readable E c all k l ↔ ∃ dt, date_given E c all k dt) as ->.
      { unfold date_readable. rewrite Hcell. naive_solver. }
      assert (∀ dt, date_given E c all k dt ↔ ∃ y m dd, pe_day E w0 = Some dd ∧ pe_month E w1 = Some m ∧ year = Some y ∧ valid_date y m dd ∧ dt = (y, m, dd)) as Hgiven.
      { intros dt. unfold date_given. setoid_rewrite Hy. split.
        - intros (l0 & day & mon & y & m & dd & Hl0 & Hc0 & H). simplify_eq/=. rewrite Hcell in Hc0. injection Hc0 as <- <-. by exists y, m, dd.
        - intros (y & m & dd & H). exists l, w0, w1, y, m, dd. done. }
      destruct (pe_day E w0) as [dd|] eqn:Ed; [|split; [done|]; intros [[(dt & (y & m & x & ? & _)%Hgiven) _] _]; congruence].
      destruct (pe_month E w1) as [m|] eqn:Em; [|split; [done|]; intros [[(dt & (y & m & x & ? & ? & _)%Hgiven) _] _]; congruence].
      destruct year as [y|]; [|split; [done|]; intros [[(dt & (y & m' & x & ? & ? & ? & _)%Hgiven) _] _]; congruence].
      destruct (from_ymd y m dd) as [dt|e|] eqn:Ef; cbn [rbind].
      + apply from_ymd_ok in Ef as [Hv ->]. rewrite Hkeep.
        * assert (∃ dt, date_given E c all k dt). { exists (y, m, dd). apply Hgiven. eauto 10. } naive_solver.
        * intros y'. rewrite (year_same k l) by (done || by rewrite Hcell). apply Hy.
        * intros dt. rewrite (date_new k l (y, m, dd) dt Hl); [naive_solver|by rewrite Hcell| |].
          -- apply Hgiven. eauto 10.
          -- intros dt' (y' & m' & d' & ? & ? & ? & _ & ->)%Hgiven. congruence.
        * done.
      + split; [done|]. intros [[(dt & (y' & m' & d' & ? & ? & ? & Hv & _)%Hgiven) _] _]. simplify_eq/=.
        assert (from_ymd y' m' d' = Ok (y', m', d')) by (by apply from_ymd_ok). congruence.
      + unfold from_ymd in Ef. by destruct (_ && _)%bool.
    - split; [done|]. intros [[Hr _] _]. unfold date_readable in Hr. rewrite Hcell in Hr.
      destruct Hr as [?|[(w & y & ? & _)|(dt & l0 & day & mon & ? & ? & ? & Hl0 & Hd0 & _)]]; [done|done|]. simplify_eq/=. congruence.
  Qed.
End dates.
Lemma read_lines_spec E t rs : read_lines E t = Ok rs ↔ table_reads E (tb_columns t) (tab_lines t) rs.
Proof.
  unfold read_lines. fold (tab_lines t). rewrite (read_table_spec E (tb_columns t) (tab_lines t) _ 0).
  - done.
  - done.
  - intros y. split; [done|]. intros (i & l & w & Hi & _). lia.
  - intros y. split; [done|]. intros (i & Hi & _). lia.
Qed.
Lemma from_ymd_valid y m d : from_ymd y m d = Ok (y, m, d) ↔ valid_date y m d.
Proof. rewrite from_ymd_ok. split; [by intros [H _]|done]. Qed.

(** Balances asserted in a journal (C131). *)
From Verif Require Import MergeClaims.
From stdpp Require Import gmap list.
From Verif Require Import Base Types SpecBase BaseProofs CommentModel MergeModel FingerprintModel NwCsvModel TzModel PaypalModel ImportClaims RulesModel RulesClaims
  OcrModel PdfModel PdfClaims PdfLaws EditClaims WindowClaims StatementClaims MergeBuild ImportProofs ImportRows ImportLaws ImportPaypal PdfDaysClaims PdfDays PipeClaims Pipe AssertClaims.
From Coq Require Import Lia QArith Lqa.
Local Open Scope nat_scope.

(** A posting that says what the entry says. *)
Definition books (p : posting_internal) (e : bank_entry) : Prop :=
  (∀ c, post_value c p == amount_in c (en_amount e))%Q ∧ p_balance (pi_raw p) = BalAmount <$> en_balance e.
Definition trn_books (A : str) (tp : transaction_postings) (es : list bank_entry) : Prop :=
  Forall2 books (on_account A (tp_posts tp)) es.

Lemma books_sum c ps es : Forall2 books ps es → (posts_value c ps == entries_value c es)%Q.
Proof.
  induction 1 as [|p e ps es [H _] _ IH]; [reflexivity|]. cbn [posts_value entries_value foldr].
  rewrite (H c). unfold posts_value, entries_value in IH. rewrite IH. reflexivity.
Qed.
Lemma books_assert A start ps es : Forall2 books (on_account A ps) es → adds_up start es → assertions_hold A start ps.
Proof.
  intros HF Hs before p after b -> HA Hb.
  unfold on_account in HF. rewrite filter_app, filter_cons_True in HF by done.
  apply Forall2_app_inv_l in HF as (es1 & es2 & H1 & H2 & ->).
  apply Forall2_cons_inv_l in H2 as (e & es3 & He & H3 & ->).
  assert (Forall2 books (on_account A (before ++ [p])) (es1 ++ [e])) as HF.
  { unfold on_account. rewrite filter_app, filter_cons_True by done. rewrite filter_nil.
    apply Forall2_app; [done|]. exact (List.Forall2_cons _ _ He (List.Forall2_nil _)). }
  destruct He as [_ He]. rewrite Hb in He. destruct (en_balance e) as [x|] eqn:Ex; [|done].
  cbn in He. injection He as ->. cbn [assertion_holds].
  rewrite (books_sum _ _ _ HF). by apply (Hs es1 e es3 x).
Qed.
Lemma trns_books A J ess : Forall2 (trn_books A) J ess → Forall2 books (on_account A (all_posts J)) (mjoin ess).
Proof.
  induction 1 as [|tp es J ess H _ IH]; [constructor|].
  unfold all_posts, on_account in *. rewrite bind_cons, filter_app. cbn [mjoin list_join]. by apply Forall2_app.
Qed.
Lemma trns_assert A start J ess : Forall2 (trn_books A) J ess → adds_up start (mjoin ess) → assertions_hold A start (all_posts J).
Proof. intros H. by apply books_assert, trns_books. Qed.

(** Rules leave amounts and balances alone. *)
Lemma kept_books A tp tp' es : tp_kept tp tp' →
  Forall2 (λ p p', p_account (pi_raw p') = A ↔ p_account (pi_raw p) = s2l "assets:unknown") (tp_posts tp) (tp_posts tp') →
  trn_books (s2l "assets:unknown") tp es → trn_books A tp' es.
Proof.
  intros [_ Hk]. unfold trn_books. revert es. generalize (tp_posts tp) (tp_posts tp') Hk. clear.
  induction 1 as [|p p' ps ps' Hp Hps IH]; intros es Ha HF; [done|].
  inversion Ha as [|? ? ? ? Ha1 Ha2]; subst. unfold on_account in *. rewrite filter_cons in HF. rewrite filter_cons.
  destruct (decide (p_account (pi_raw p) = s2l "assets:unknown")) as [E|E].
  - rewrite decide_True by (by apply Ha1). inversion HF as [|? e ? es' He HF']; subst. constructor; [|by apply IH].
    destruct He as [He1 He2]. destruct Hp. split.
    + intros c. rewrite <- (He1 c). unfold post_value. by rewrite pk_amount.
    + by rewrite pk_balance.
  - rewrite decide_False by (by rewrite Ha1). by apply IH.
Qed.

(** Sorting. *)
Lemma sort_insert_Forall2 {A B} (R : A → B → Prop) (key : A → date) (key' : B → date) x y l k :
  (∀ x y, R x y → key x = key' y) → R x y → Forall2 R l k →
  Forall2 R (sort_insert (by_key key) x l) (sort_insert (by_key key') y k).
Proof.
  intros HR Hxy. induction 1 as [|a b l k Hab H IH]; cbn [sort_insert].
  - exact (List.Forall2_cons _ _ Hxy (List.Forall2_nil _)).
  - unfold by_key. rewrite (HR _ _ Hxy), (HR _ _ Hab). destruct (date_leb _ _).
    + constructor; [done|]. by constructor.
    + constructor; [done|]. exact IH.
Qed.
Lemma stable_sort_Forall2 {A B} (R : A → B → Prop) (key : A → date) (key' : B → date) l k :
  (∀ x y, R x y → key x = key' y) → Forall2 R l k →
  Forall2 R (stable_sort (by_key key) l) (stable_sort (by_key key') k).
Proof.
  intros HR. induction 1 as [|a b l k Hab H IH]; [constructor|]. cbn [stable_sort].
  by apply sort_insert_Forall2.
Qed.

(** Rows in order, and what becomes of them. *)
Section rows.
  Context {R : Type} (key : R → date) (says : R → list bank_entry → Prop).
  Definition booked (A : str) (r : R) (tp : transaction_postings) : Prop :=
    key r = tp_date tp ∧ ∀ es, says r es → trn_books A tp es.
  Lemma sorted_assert A start rs J ess : Forall2 (booked A) rs J → Forall2 says (stable_sort (by_key key) rs) ess →
    adds_up start (mjoin ess) → assertions_hold A start (all_posts (stable_sort (by_key tp_date) J)).
  Proof.
    intros HF Hs. apply trns_assert.
    pose proof (stable_sort_Forall2 _ key tp_date _ _ (λ _ _ H, proj1 H) HF) as HS.
    revert ess Hs. induction HS as [|r tp rs' J' [_ H] _ IH]; intros ess Hs; inversion Hs; subst; constructor; auto.
  Qed.
  Lemma booked_ruled A rs tps J : Forall2 tp_kept tps J → puts_on A tps J →
    Forall2 (booked (s2l "assets:unknown")) rs tps → Forall2 (booked A) rs J.
  Proof.
    intros Hk. revert rs. induction Hk as [|tp tp' tps J Hk _ IH]; intros rs Hp HF; inversion HF as [|r ? rs' ? [H1 H2] H3]; subst; [constructor|].
    inversion Hp; subst. constructor; [|by apply IH]. split.
    - rewrite H1. destruct Hk as [[] _]. done.
    - intros es Hes. eapply kept_books; [done|done|by apply H2].
  Qed.
End rows.
Lemma singles {A B} (P : A → B → Prop) l k : Forall2 P l k → Forall2 (λ x ys, ∃ y, ys = [y] ∧ P x y) l ((λ y, [y]) <$> k).
Proof. induction 1; csimpl; constructor; eauto. Qed.
Lemma mjoin_singles {B} (k : list B) : mjoin ((λ y, [y]) <$> k) = k.
Proof. induction k as [|x k IH]; [done|]. csimpl. by rewrite IH. Qed.

(** ** Nationwide CSV *)
Definition nw_says (r : nw_record) (es : list bank_entry) : Prop := ∃ e, es = [e] ∧ nw_entry r e.
Lemma amount_in_opposite c a b : opposite a b → (amount_in c b == - amount_in c a)%Q.
Proof. intros [E H]. unfold amount_in. rewrite E. destruct (decide _); [exact H|]. reflexivity. Qed.
Lemma peer_not_unknown a : peer_account a ≠ s2l "assets:unknown".
Proof.
  destruct (peer_account_ok a) as (_ & _ & [->| ->]); discriminate.
Qed.
Lemma nw_booked pd ho o records ns ts name rs : nw_csv_import pd ho o records = Ok (ns, ts) → statement_reads pd records name rs →
  Forall2 (booked rec_date nw_says (s2l "assets:unknown")) rs (as_merged ts).
Proof.
  intros Hi Hs. unfold as_merged. apply Forall2_fmap_r. eapply (rows_relate _ _ _ _ _ _ _ _ (λ r t, booked rec_date nw_says (s2l "assets:unknown") r (transaction_postings_of t))); [done|done|].
  intros r a c1 c2 i Ha _ _ _. split; [done|]. intros es (e & -> & He & Hp).
  unfold trn_books, on_account, transaction_postings_of. cbn [tp_posts t_postings]. csimpl.
  rewrite filter_cons_True by done. rewrite filter_cons_False by (apply peer_not_unknown). rewrite filter_nil.
  apply List.Forall2_cons; [|constructor]. split.
  - intros c. transitivity (amount_in c a).
    { unfold post_value, amount_in. reflexivity. }
    destruct Hp as [[Hp1 Hp2]|[Hp1 (b & Hp2 & Ho)]]; rewrite Hp1, Hp2 in Ha; cbn in Ha; injection Ha as <-; [reflexivity|].
    rewrite (amount_in_opposite _ _ _ Ho). apply amount_in_opposite, negate_opposite.
  - cbn. rewrite He. by destruct r.
Qed.

(** ** PayPal *)
Definition pp_says (g : instant * list pp_row) (es : list bank_entry) : Prop := es = pp_entry <$> g.2.
Lemma pairs_booked (g : list pp_row) (ps : list posting) : length ps = 2 * length g →
  (∀ i r, g !! i = Some r → ∃ own peer, ps !! (2 * i) = Some own ∧ ps !! (2 * i + 1) = Some peer ∧
    posting_is own (s2l "assets:unknown") (row_amount r) ∧ p_balance own = Some (BalAmount (row_balance r)) ∧ p_account peer ≠ s2l "assets:unknown") →
  Forall2 books (on_account (s2l "assets:unknown") (posting_internal_of <$> ps)) (pp_entry <$> g).
Proof.
  revert ps. induction g as [|r g IH]; intros ps Hl H.
  { destruct ps; [constructor|done]. }
  destruct ps as [|own [|peer ps]]; [done| |].
  { cbn [length] in Hl. lia. }
  destruct (H 0 r eq_refl) as (own' & peer' & E1 & E2 & [Ho1 Ho2] & Ho3 & Hpe). cbn in E1, E2.
  injection E1 as <-. injection E2 as <-. rewrite !fmap_cons. unfold on_account.
  rewrite filter_cons_True by done. rewrite filter_cons_False by done. constructor.
  - split; [|by cbn; rewrite Ho3]. intros c. unfold post_value. cbn. rewrite Ho2. reflexivity.
  - apply IH; [cbn [length] in Hl; lia|]. intros i r' Hi. destruct (H (S i) r' Hi) as (own' & peer' & E1 & E2 & H').
    exists own', peer'. replace (2 * S i) with (S (S (2 * i))) in E1, E2 by lia. done.
Qed.
Lemma pp_booked ho legacy tz db ns rows ts gs : hash_order_ok ho → pp_import ho legacy tz db ns rows = Ok ts → runs db rows gs →
  Forall2 (booked (λ g, tz g.1) pp_says (s2l "assets:unknown")) gs (as_merged ts).
Proof.
  intros Hho Hi Hr. destruct (c50 _ _ _ _ _ _ _ Hi) as (gs' & _ & Hu & HF). rewrite <- (Hu _ Hr) in HF. clear gs' Hu.
  unfold as_merged. apply Forall2_fmap_r.
  assert (∀ t, t ∈ ts → ∀ i own peer, t_postings t !! (2 * i) = Some own → t_postings t !! (2 * i + 1) = Some peer → sides own peer) as Hsides.
  { intros t Ht i own peer. by eapply c46_pp. }
  clear Hr Hi. induction HF as [|g t gs ts Hg _ IH]; [constructor|].
  constructor; [|apply IH; intros t' Ht'; apply Hsides; by right].
  destruct Hg as (Hd & _ & Hl & Hg). split; [done|]. intros es ->.
  unfold trn_books, transaction_postings_of. cbn [tp_posts]. apply pairs_booked; [done|].
  intros i r Hr. destruct (Hg i r Hr) as (own & peer & H1 & H2 & H3 & H4 & _). exists own, peer.
  destruct (Hsides t ltac:(left) i own peer H1 H2) as (a & b & acct & _ & [Hpe _] & _ & (_ & _ & Hacct) & _).
  split_and!; [done..|]. rewrite Hpe. destruct Hacct as [->| ->]; discriminate.
Qed.

(** ** PDF *)
Definition pdf_says (E : pdf_env) (g : group) (es : list bank_entry) : Prop := ∃ e, es = [e] ∧ pdf_entry E g e.
Lemma group_reads_unplaced E g d a es bs : group_reads E g d a es bs ↔ group_reads E (unplaced_group g) d a es bs.
Proof.
  assert (filter effective_line (unplaced <$> g.2) = unplaced <$> filter effective_line g.2) as Hf.
  { apply filter_unplaced. }
  assert (omap tl_balance (group_lines (unplaced_group g)) = omap tl_balance (group_lines g)) as Ho.
  { unfold group_lines, unplaced_group. cbn [fst snd]. rewrite <- fmap_cons. generalize (g.1 :: g.2). intros l.
    induction l as [|x l IH]; [done|]. rewrite fmap_cons. csimpl. by rewrite IH. }
  split; intros []; split; [done|done| |by rewrite ?Ho|done|done| |by rewrite ?Ho in *].
  - cbn [unplaced_group snd]. rewrite Hf. by apply Forall2_fmap_l.
  - cbn [unplaced_group snd] in *. rewrite Hf in gr_effective. by apply Forall2_fmap_l in gr_effective.
Qed.
Lemma reads_amount_fun E s a b : reads_amount E s a → reads_amount E s b → a = b.
Proof. intros [H1 H2] [H3 H4]. destruct a, b. cbn in *. rewrite H1 in H3. injection H3 as ->. congruence. Qed.
Lemma group_amount_fun E l a b : group_amount E l a → group_amount E l b → a = b.
Proof.
  intros (s & x & H1 & _ & H2) (s' & y & H3 & _ & H4).
  destruct H2 as [(R1 & P1 & ->)|(P1 & R1 & ->)], H4 as [(R2 & P2 & ->)|(P2 & R2 & ->)]; try congruence.
  - rewrite R1 in R2. injection R2 as <-. by eapply reads_amount_fun.
  - rewrite P1 in P2. injection P2 as <-. by rewrite (reads_amount_fun _ _ _ _ H1 H3).
Qed.
Lemma reads_amounts_fun E ss bs bs' : Forall2 (reads_amount E) ss bs → Forall2 (reads_amount E) ss bs' → bs = bs'.
Proof.
  intros H. revert bs'. induction H as [|s b ss bs H _ IH]; intros bs' H'; inversion H'; subst; [done|].
  f_equal; [by eapply reads_amount_fun|auto].
Qed.
Lemma pdf_booked E ho o doc ns ts ls skip gs : pdf_import E ho o doc = Ok (ns, ts) → statement_lines E doc ls → grouped ls skip gs →
  Forall2 (booked group_date (pdf_says E) (s2l "assets:unknown")) (unplaced_group <$> gs) (as_merged ts).
Proof.
  intros Hi Hl Hg. pose proof (c66_groups _ _ _ _ _ _ _ _ _ Hi Hl Hg) as HF. unfold as_merged. apply Forall2_fmap.
  eapply Forall2_impl; [exact HF|]. clear. intros g t (d & a & es & bs & own & peer & b & acct & Hr & Hd & _ & _ & _ & _ & _ & Hp & [Ho1 Ho2] & Hb & [Hpe _] & _ & (_ & _ & Ha) & _).
  split.
  - unfold group_date, unplaced_group. cbn [fst unplaced tl_date]. destruct Hr. rewrite gr_date. cbn [default]. unfold tp_date, transaction_postings_of. cbn. done.
  - intros es0 (e & -> & d' & es' & bs' & Hr' & He). apply group_reads_unplaced in Hr'.
    destruct Hr, Hr'. pose proof (group_amount_fun _ _ _ _ gr_amount gr_amount0) as Ea. pose proof (reads_amounts_fun _ _ _ _ gr_balances gr_balances0) as Eb.
    unfold trn_books, transaction_postings_of. cbn [tp_posts]. rewrite Hp. csimpl. unfold on_account.
    rewrite filter_cons_True by done.
    rewrite filter_cons_False by (cbn; rewrite Hpe; destruct Ha as [->| ->]; discriminate). rewrite filter_nil.
    apply List.Forall2_cons; [|constructor]. split.
    + intros c. rewrite <- Ea. unfold post_value. cbn. rewrite Ho2. reflexivity.
    + cbn. by rewrite Hb, He, Eb.
Qed.

(** ** Journals of statements *)
Lemma nw_asserts pd o name rows seen ts es start : nw_statement pd o name rows seen ts →
  Forall2 nw_entry (stable_sort (by_key rec_date) (window rows seen)) es → adds_up start es →
  assertions_hold (s2l "assets:unknown") start (all_posts (stable_sort (by_key tp_date) (as_merged ts))).
Proof.
  intros (_ & ho & records & ns & _ & _ & Hs & Hi) He Ha.
  apply (sorted_assert rec_date nw_says _ _ _ _ _ (nw_booked _ _ _ _ _ _ _ _ Hi Hs) (singles _ _ _ He)). by rewrite mjoin_singles.
Qed.
Lemma nw_ruled_asserts pd o name rows seen ts es start X T A J : nw_statement pd o name rows seen ts →
  Forall2 nw_entry (stable_sort (by_key rec_date) (window rows seen)) es → adds_up start es →
  is_Some (T !! s2l "start") → ruled X T (as_merged ts) J → puts_on A (as_merged ts) J →
  assertions_hold A start (all_posts (stable_sort (by_key tp_date) J)).
Proof.
  intros (_ & ho & records & ns & _ & _ & Hs & Hi) He Ha HT HJ HA.
  apply (sorted_assert rec_date nw_says _ _ _ _ _ (booked_ruled _ _ _ _ _ _ (ruled_kept _ _ _ _ HT HJ) HA (nw_booked _ _ _ _ _ _ _ _ Hi Hs)) (singles _ _ _ He)).
  by rewrite mjoin_singles.
Qed.
Lemma pp_entries (gs : list (instant * list pp_row)) : mjoin ((λ g : instant * list pp_row, pp_entry <$> g.2) <$> gs) = pp_entry <$> (gs ≫= snd).
Proof. induction gs as [|g gs IH]; [done|]. csimpl. by rewrite IH, fmap_app. Qed.
Lemma pp_said (gs : list (instant * list pp_row)) : Forall2 pp_says gs ((λ g : instant * list pp_row, pp_entry <$> g.2) <$> gs).
Proof. apply Forall2_fmap_r, Forall_Forall2_diag, Forall_true. intros g. reflexivity. Qed.
Lemma pp_asserts tz db ns groups seen ts start : pp_statement tz db ns groups seen ts →
  adds_up start (pp_entry <$> (stable_sort (by_key (λ g, tz g.1)) (window groups seen) ≫= snd)) →
  assertions_hold (s2l "assets:unknown") start (all_posts (stable_sort (by_key tp_date) (as_merged ts))).
Proof.
  intros (_ & ho & rows & Hho & _ & Hr & Hi) Ha.
  apply (sorted_assert (λ g, tz g.1) pp_says _ _ _ _ _ (pp_booked _ _ _ _ _ _ _ _ Hho Hi Hr) (pp_said _)).
  by rewrite pp_entries.
Qed.
Lemma pp_ruled_asserts tz db ns groups seen ts start X T A J : pp_statement tz db ns groups seen ts →
  adds_up start (pp_entry <$> (stable_sort (by_key (λ g, tz g.1)) (window groups seen) ≫= snd)) →
  is_Some (T !! s2l "start") → ruled X T (as_merged ts) J → puts_on A (as_merged ts) J →
  assertions_hold A start (all_posts (stable_sort (by_key tp_date) J)).
Proof.
  intros (_ & ho & rows & Hho & _ & Hr & Hi) Ha HT HJ HA.
  apply (sorted_assert (λ g, tz g.1) pp_says _ _ _ _ _ (booked_ruled _ _ _ _ _ _ (ruled_kept _ _ _ _ HT HJ) HA (pp_booked _ _ _ _ _ _ _ _ Hho Hi Hr)) (pp_said _)).
  by rewrite pp_entries.
Qed.
Lemma pdf_asserts E o name parts seen ts es start : pdf_statement E o name parts seen ts →
  Forall2 (pdf_entry E) (stable_sort (by_key group_date) (window parts seen)) es → adds_up start es →
  assertions_hold (s2l "assets:unknown") start (all_posts (stable_sort (by_key tp_date) (as_merged ts))).
Proof.
  intros (_ & ho & doc & ns & ls & skip & gs & _ & _ & Hl & Hg & Hw & Hi) He Ha. rewrite <- Hw in He.
  apply (sorted_assert group_date (pdf_says E) _ _ _ _ _ (pdf_booked _ _ _ _ _ _ _ _ _ Hi Hl Hg) (singles _ _ _ He)). by rewrite mjoin_singles.
Qed.
Lemma pdf_ruled_asserts E o name parts seen ts es start X T A J : pdf_statement E o name parts seen ts →
  Forall2 (pdf_entry E) (stable_sort (by_key group_date) (window parts seen)) es → adds_up start es →
  is_Some (T !! s2l "start") → ruled X T (as_merged ts) J → puts_on A (as_merged ts) J →
  assertions_hold A start (all_posts (stable_sort (by_key tp_date) J)).
Proof.
  intros (_ & ho & doc & ns & ls & skip & gs & _ & _ & Hl & Hg & Hw & Hi) He Ha HT HJ HA. rewrite <- Hw in He.
  apply (sorted_assert group_date (pdf_says E) _ _ _ _ _ (booked_ruled _ _ _ _ _ _ (ruled_kept _ _ _ _ HT HJ) HA (pdf_booked _ _ _ _ _ _ _ _ _ Hi Hl Hg)) (singles _ _ _ He)).
  by rewrite mjoin_singles.
Qed.

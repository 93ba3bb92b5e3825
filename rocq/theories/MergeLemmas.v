(** Lemmas behind the claims about merging: posting-level laws, uniqueness of
    representation, the built journal as a permutation of the postings. *)
From Verif Require Import Base Types CommentModel MergeModel SpecBase BaseProofs MergeSpec MergeClaims
  MergeProofs MergePending MergeApply MergeBuild MergeClosed.
From Coq Require Import Lia QArith Qfield.
Local Open Scope nat_scope.

(** ** Soft matching *)
Lemma pow10_pos n : (0 < 10 ^ Z.of_N n)%Z.
Proof. apply Z.pow_pos_nonneg; lia. Qed.
Lemma dec_eqb_spec a b : dec_eqb a b = true ↔ (dec_value a == dec_value b)%Q.
Proof.
  unfold dec_eqb, dec_value. fold (d_signed a) (d_signed b). rewrite Z.eqb_eq.
  pose proof (pow10_pos (d_scale a)) as Ha. pose proof (pow10_pos (d_scale b)) as Hb.
  set (x := (10 ^ Z.of_N (d_scale a))%Z) in *. set (y := (10 ^ Z.of_N (d_scale b))%Z) in *.
  assert (¬ (inject_Z x == 0)%Q) as Hx by (unfold Qeq; simpl; lia).
  assert (¬ (inject_Z y == 0)%Q) as Hy by (unfold Qeq; simpl; lia).
  split.
  - intros E. apply (Qmult_inj_r _ _ (inject_Z x * inject_Z y)).
    { intros H0. apply Qmult_integral in H0 as [?|?]; done. }
    setoid_replace (inject_Z (d_signed a) / inject_Z x * (inject_Z x * inject_Z y))%Q
      with (inject_Z (d_signed a) * inject_Z y)%Q by (field; done).
    setoid_replace (inject_Z (d_signed b) / inject_Z y * (inject_Z x * inject_Z y))%Q
      with (inject_Z (d_signed b) * inject_Z x)%Q by (field; done).
    rewrite <- !inject_Z_mult. by rewrite E.
  - intros E. apply inject_Z_injective. rewrite !inject_Z_mult.
    transitivity (inject_Z (d_signed a) / inject_Z x * (inject_Z x * inject_Z y))%Q; [field; done|].
    rewrite E. field. done.
Qed.
Lemma commodity_eqb_spec a b : commodity_eqb a b = true ↔ a = b.
Proof.
  destruct a as [n p], b as [n' p']. unfold commodity_eqb, str_eqb. simpl.
  rewrite andb_true_iff, bool_decide_eq_true. destruct p, p'; simpl; naive_solver.
Qed.
Lemma amount_eqb_spec a b : amount_eqb a b = true ↔ same_amount a b.
Proof. unfold amount_eqb, same_amount. by rewrite andb_true_iff, dec_eqb_spec, commodity_eqb_spec. Qed.
Lemma price_eqb_spec a b : price_eqb a b = true ↔ same_price a b.
Proof. destruct a, b; simpl; rewrite ?amount_eqb_spec; done. Qed.
Lemma opt_eqb_spec {A} (f : A → A → bool) (R : A → A → Prop) :
  (∀ a b, f a b = true ↔ R a b) → ∀ a b, opt_eqb f a b = true ↔ same_opt R a b.
Proof. intros H [a|] [b|]; simpl; rewrite ?H; done. Qed.
Lemma posting_amount_eqb_spec a b : posting_amount_eqb a b = true ↔ same_posting_amount a b.
Proof.
  unfold posting_amount_eqb, same_posting_amount.
  rewrite !andb_true_iff, amount_eqb_spec, !(opt_eqb_spec _ _ price_eqb_spec). naive_solver.
Qed.
Lemma balance_eqb_spec a b : balance_eqb a b = true ↔ same_balance a b.
Proof. destruct a, b; simpl; rewrite ?amount_eqb_spec; done. Qed.

Lemma matches_spec a b : matches a b = true ↔ soft_match a b.
Proof.
  unfold matches, soft_match, unknown_account, has_tag.
  change (s2l "unknown-account") with UNKNOWN_ACCOUNT.
  rewrite !andb_true_iff, (opt_eqb_spec _ _ posting_amount_eqb_spec).
  assert ((match p_balance (pi_raw a), p_balance (pi_raw b) with
           | Some x, Some y => balance_eqb x y | _, _ => true end = true) ↔
    ∀ x y, p_balance (pi_raw a) = Some x → p_balance (pi_raw b) = Some y → same_balance x y) as ->.
  { destruct (p_balance (pi_raw a)), (p_balance (pi_raw b)); rewrite ?balance_eqb_spec; naive_solver. }
  destruct (bool_decide_reflect (UNKNOWN_ACCOUNT ∈ tags (pi_comment a)));
    destruct (bool_decide_reflect (UNKNOWN_ACCOUNT ∈ tags (pi_comment b))); simpl;
    unfold str_eqb; rewrite ?bool_decide_eq_true; naive_solver.
Qed.
Lemma same_amount_refl a : same_amount a a.
Proof. split; [apply Qeq_refl|done]. Qed.
Lemma same_amount_sym a b : same_amount a b → same_amount b a.
Proof. intros [? ?]. split; [by apply Qeq_sym|done]. Qed.
Lemma same_opt_refl {A} (R : A → A → Prop) : (∀ a, R a a) → ∀ a, same_opt R a a.
Proof. intros H [a|]; simpl; auto. Qed.
Lemma same_opt_sym {A} (R : A → A → Prop) : (∀ a b, R a b → R b a) → ∀ a b, same_opt R a b → same_opt R b a.
Proof. intros H [a|] [b|]; simpl; auto. Qed.
Lemma same_price_refl a : same_price a a.
Proof. destruct a; apply same_amount_refl. Qed.
Lemma same_price_sym a b : same_price a b → same_price b a.
Proof. destruct a, b; simpl; auto using same_amount_sym. Qed.
Lemma soft_match_refl a : soft_match a a.
Proof.
  split; [|split].
  - apply same_opt_refl. intros x. split_and!; [apply same_amount_refl|..];
      apply same_opt_refl, same_price_refl.
  - intros x y E1 E2. assert (x = y) as -> by congruence. destruct y; simpl; [done|apply same_amount_refl].
  - done.
Qed.
Lemma soft_match_sym a b : soft_match a b → soft_match b a.
Proof.
  intros (H1 & H2 & H3). split; [|split].
  - revert H1. apply same_opt_sym. intros x y (Ha & Hb & Hc). split_and!; [by apply same_amount_sym|..];
      (eapply same_opt_sym; [apply same_price_sym|done]).
  - intros x y E1 E2. specialize (H2 _ _ E2 E1). destruct x, y; simpl in *; try done.
    by apply same_amount_sym.
  - intros ? ?. symmetry. auto.
Qed.

(** ** Lookup *)
Lemma fp_match_hits j p i : fp_match_at j p i ↔ i ∈ fp_hits j p.
Proof. by rewrite elem_of_fp_hits. Qed.
Lemma soft_match_hits j d p i : soft_match_at j d p i ↔ i ∈ soft_hits j d p.
Proof. rewrite elem_of_soft_hits. unfold soft_match_at. by setoid_rewrite matches_spec. Qed.

Lemma NoDup_none {A} (l : list A) : (∀ x, x ∉ l) ↔ l = [].
Proof.
  split; [|intros ->; intros x ?%elem_of_nil; done].
  destruct l as [|x l]; [done|]. intros H. destruct (H x). left.
Qed.
Lemma NoDup_single {A} (l : list A) x : NoDup l → (x ∈ l ∧ ∀ y, y ∈ l → y = x) ↔ l = [x].
Proof.
  intros Hn. split.
  - intros [Hx Hy]. destruct l as [|a [|b l]]; [by apply elem_of_nil in Hx|f_equal; apply Hy; left|].
    assert (a = b); [rewrite (Hy a), (Hy b); [done|right; left|left]|]. subst.
    apply NoDup_cons in Hn as [Hn _]. destruct Hn. left.
  - intros ->. split; [left|]. by intros y ->%elem_of_list_singleton.
Qed.
Lemma NoDup_several {A} (l : list A) : NoDup l → (∃ x y, x ≠ y ∧ x ∈ l ∧ y ∈ l) ↔ 2 ≤ length l.
Proof.
  intros Hn. split.
  - intros (x & y & Hne & Hx & Hy). destruct l as [|a [|b l]]; simpl; [by apply elem_of_nil in Hx| |lia].
    apply elem_of_list_singleton in Hx, Hy. congruence.
  - destruct l as [|a [|b l]]; simpl; [lia..|]. intros _. exists a, b.
    apply NoDup_cons in Hn as [Hn _]. split_and!; [|left|right; left]. intros ->. apply Hn. left.
Qed.

Lemma selects_spec j d p i : selects j d p i ↔ lookup_posting j d p = VMerge i.
Proof.
  unfold selects, lookup_posting. setoid_rewrite fp_match_hits. setoid_rewrite soft_match_hits.
  rewrite NoDup_none, NoDup_single by apply NoDup_positions.
  assert ((i ∈ soft_hits j d p ∧ ∀ k, k ∈ soft_hits j d p → k = i) ↔ soft_hits j d p = [i]) as ->
    by (apply NoDup_single, NoDup_positions).
  destruct (fp_hits j p) as [|a [|b l]]; destruct (soft_hits j d p) as [|a' [|b' l']]; naive_solver.
Qed.
Lemma matches_nothing_spec j d p : matches_nothing j d p ↔ lookup_posting j d p = VNew.
Proof.
  unfold matches_nothing, lookup_posting. setoid_rewrite fp_match_hits. setoid_rewrite soft_match_hits.
  rewrite !NoDup_none.
  destruct (fp_hits j p) as [|a [|b l]]; destruct (soft_hits j d p) as [|a' [|b' l']]; naive_solver.
Qed.
Lemma ambiguous_spec j d p : ambiguous j d p ↔
  ∃ l, lookup_posting j d p = VAmbiguous l ∧ l = soft_hits j d p.
Proof.
  unfold ambiguous, lookup_posting. setoid_rewrite fp_match_hits. setoid_rewrite soft_match_hits.
  rewrite NoDup_none.
  assert ((∃ i k, i ≠ k ∧ i ∈ soft_hits j d p ∧ k ∈ soft_hits j d p) ↔ 2 ≤ length (soft_hits j d p)) as ->
    by apply NoDup_several, NoDup_positions.
  destruct (fp_hits j p) as [|a [|b l]]; destruct (soft_hits j d p) as [|a' [|b' l']]; simpl;
    split; try (intros [? ?]; done); try (intros (? & ? & ?); done); try (intros [? ?]; lia).
  - intros _. eexists. done.
  - intros _. split; [done|lia].
Qed.
Lemma ambiguous_is j d p : ambiguous j d p ↔ is_ambiguous (lookup_posting j d p) = true.
Proof.
  rewrite ambiguous_spec. split; [by intros (l & -> & _)|].
  unfold lookup_posting. destruct (fp_hits j p) as [|a [|b l]]; try done.
  destruct (soft_hits j d p) as [|a' [|b' l']]; try done. eauto.
Qed.
Lemma conflicting_spec j p : conflicting j p ↔ 2 ≤ length (fp_hits j p).
Proof. unfold conflicting. setoid_rewrite fp_match_hits. apply NoDup_several, NoDup_positions. Qed.
Lemma to_merge_spec j tp : to_merge j tp ↔ left_out j tp = false.
Proof.
  unfold to_merge, left_out. setoid_rewrite ambiguous_is. unfold verdicts.
  destruct (tp_posts tp) as [|p0 ps0] eqn:E; [naive_solver|]. rewrite <- E.
  transitivity (¬ existsb is_ambiguous (lookup_posting j (tp_date tp) <$> tp_posts tp) = true);
    [|destruct (existsb _ _); naive_solver].
  rewrite existsb_exists. split.
  - intros [_ H] (v & Hv & Ha). apply elem_of_list_In, elem_of_list_fmap in Hv as (p & -> & Hp).
    by apply (H p).
  - intros H. split; [congruence|]. intros p Hp Ha. apply H. eexists. split; [|done].
    apply elem_of_list_In, elem_of_list_fmap. eauto.
Qed.

(** ** Comments and postings *)
Lemma merge_lines_prefix a b : a `prefix_of` merge_lines a b.
Proof.
  unfold merge_lines. revert a; induction b as [|l b IH]; intros a; simpl; [done|].
  destruct (existsb _ a); [apply IH|]. etrans; [|apply IH]. by exists [l].
Qed.
Lemma existsb_str ls l : existsb (λ x, str_eqb x l) ls = true ↔ l ∈ ls.
Proof.
  rewrite existsb_exists. setoid_rewrite <- elem_of_list_In. unfold str_eqb.
  setoid_rewrite bool_decide_eq_true. naive_solver.
Qed.
Lemma merge_lines_elem a b l : l ∈ merge_lines a b ↔ l ∈ a ∨ l ∈ b.
Proof.
  unfold merge_lines. revert a; induction b as [|k b IH]; intros a; simpl.
  - set_solver.
  - destruct (existsb (λ x, str_eqb x k) a) eqn:E; rewrite IH.
    + apply existsb_str in E. set_solver.
    + set_solver.
Qed.
Lemma merge_lines_sub a b : (∀ l, l ∈ b → l ∈ a) → merge_lines a b = a.
Proof.
  unfold merge_lines. induction b as [|k b IH]; intros H; simpl; [done|].
  assert (existsb (λ x, str_eqb x k) a = true) as -> by (apply existsb_str, H; left).
  apply IH. intros l Hl. apply H. by right.
Qed.
Lemma merge_lines_idem a b : merge_lines (merge_lines a b) b = merge_lines a b.
Proof. apply merge_lines_sub. intros l Hl. apply merge_lines_elem. by right. Qed.

Lemma post_refines_refl p : post_refines p p.
Proof. split; auto. by left. Qed.
Lemma status_le_trans a b c : status_le a b → status_le b c → status_le a c.
Proof. unfold status_le. naive_solver. Qed.
Lemma post_refines_trans p q r : post_refines p q → post_refines q r → post_refines p r.
Proof.
  intros H1 H2. destruct H1 as [A1 A2 A3 A4 A5 A6 A7 A8 A9 A10], H2 as [B1 B2 B3 B4 B5 B6 B7 B8 B9 B10].
  split; try (by etrans); try (by eauto).
  - destruct B4 as [->|?]; auto.
  - destruct A5 as [?|A5]; [by left|]. destruct B5 as [?|B5].
    + left. congruence.
    + right. congruence.
  - by eapply status_le_trans.
Qed.

Lemma merge_posting_refines x p : post_refines x (merge_posting x p).
Proof.
  assert (∀ t, t ∈ tags (pi_comment x) → t ≠ UNKNOWN_ACCOUNT →
            t ∈ tags (pi_comment (merge_posting x p))) as Htags.
  { intros t Ht Hne. rewrite merge_posting_tags, decide_False by done. by left. }
  assert (UNKNOWN_ACCOUNT ∈ tags (pi_comment (merge_posting x p)) → UNKNOWN_ACCOUNT ∈ tags (pi_comment x)) as Hunk.
  { rewrite merge_posting_tags, decide_True by done. naive_solver. }
  assert (p_account (pi_raw (merge_posting x p)) = p_account (pi_raw x) ∨ UNKNOWN_ACCOUNT ∈ tags (pi_comment x)) as Hacc.
  { unfold merge_posting. destruct (bool_decide_reflect (UNKNOWN_ACCOUNT ∈ tags (pi_comment x))); [by right|].
    left. simpl. destruct x as [[a r am [b|] [[]|] c] [ls ts vs]], p as [[a' r' am' b' [[]|] c'] [ls' ts' vs']]; done. }
  split; try done.
  - unfold merge_posting.
    destruct (bool_decide _ && negb _);
    destruct x as [[a r am [b|] [[]|] c] [ls ts vs]], p as [[a' r' am' b' [[]|] c'] [ls' ts' vs']]; done.
  - unfold merge_posting.
    destruct (bool_decide _ && negb _);
    destruct x as [[a r am [b|] [[]|] c] [ls ts vs]], p as [[a' r' am' b' [[]|] c'] [ls' ts' vs']]; done.
  - unfold merge_posting.
    destruct (bool_decide _ && negb _);
    destruct x as [[a r am [b|] [[]|] c] [ls ts vs]], p as [[a' r' am' b' [[]|] c'] [ls' ts' vs']]; done.
  - unfold merge_posting.
    destruct (bool_decide _ && negb _);
    destruct x as [[a r am [b|] [[]|] c] [ls ts vs]], p as [[a' r' am' b' [[]|] c'] [ls' ts' vs']]; simpl; auto.
  - unfold merge_posting, status_le.
    destruct (bool_decide _ && negb _);
    destruct x as [[a r am [b|] [[]|] c] [ls ts vs]], p as [[a' r' am' b' [[]|] c'] [ls' ts' vs']]; simpl; auto.
  - unfold merge_posting. destruct (bool_decide _ && negb _); simpl; apply merge_lines_prefix.
  - intros k. unfold merge_posting.
    destruct (bool_decide _ && negb _); simpl; rewrite lookup_union_is_Some; auto.
Qed.

Lemma merge_posting_contains x p : contains_source (merge_posting x p) p.
Proof.
  split.
  - intros t Ht Hne. unfold has_tag. rewrite merge_posting_tags, decide_False by done. by right.
  - intros l Hl. unfold merge_posting. destruct (bool_decide _ && negb _); simpl;
      apply merge_lines_elem; by right.
  - unfold merge_posting. destruct (bool_decide _ && negb _); simpl; apply map_union_subseteq_l.
Qed.
Lemma contains_source_refl p : contains_source p p.
Proof. split; auto. Qed.

Lemma comment_eq (a b : comment) :
  lines a = lines b → (∀ t, t ∈ tags a ↔ t ∈ tags b) → value_tags a = value_tags b → a = b.
Proof. destruct a, b. simpl. intros -> H ->. f_equal. apply set_eq. done. Qed.

Definition raw_merge (x p : posting_internal) : posting := pi_raw (merge_posting x p).
Lemma merge_posting_lines x p :
  lines (pi_comment (merge_posting x p)) = merge_lines (lines (pi_comment x)) (lines (pi_comment p)).
Proof. unfold merge_posting. by destruct (bool_decide _ && negb _). Qed.
Lemma merge_posting_values x p :
  value_tags (pi_comment (merge_posting x p)) = value_tags (pi_comment p) ∪ value_tags (pi_comment x).
Proof. unfold merge_posting. by destruct (bool_decide _ && negb _). Qed.
Definition merge_status (x p : option status) : option status :=
  match x, p with
  | None, s => s
  | Some Pending, Some Cleared => Some Cleared
  | Some s, _ => Some s
  end.
Lemma merge_posting_status x p :
  p_status (pi_raw (merge_posting x p)) = merge_status (p_status (pi_raw x)) (p_status (pi_raw p)).
Proof.
  unfold merge_posting. destruct (bool_decide _ && negb _);
  destruct x as [[a r am [b|] [[]|] c] [ls ts vs]], p as [[a' r' am' b' [[]|] c'] [ls' ts' vs']]; done.
Qed.
Lemma merge_posting_balance x p :
  p_balance (pi_raw (merge_posting x p)) =
  match p_balance (pi_raw x) with None => p_balance (pi_raw p) | Some b => Some b end.
Proof.
  unfold merge_posting. destruct (bool_decide _ && negb _);
  destruct x as [[a r am [b|] [[]|] c] [ls ts vs]], p as [[a' r' am' b' [[]|] c'] [ls' ts' vs']]; done.
Qed.
Lemma merge_posting_account x p :
  p_account (pi_raw (merge_posting x p)) =
  if bool_decide (UNKNOWN_ACCOUNT ∈ tags (pi_comment x)) && negb (bool_decide (UNKNOWN_ACCOUNT ∈ tags (pi_comment p)))
  then p_account (pi_raw p) else p_account (pi_raw x).
Proof.
  unfold merge_posting. destruct (bool_decide _ && negb _);
  destruct x as [[a r am [b|] [[]|] c] [ls ts vs]], p as [[a' r' am' b' [[]|] c'] [ls' ts' vs']]; done.
Qed.
Lemma posting_internal_eq (a b : posting_internal) :
  p_account (pi_raw a) = p_account (pi_raw b) → p_reality (pi_raw a) = p_reality (pi_raw b) →
  p_amount (pi_raw a) = p_amount (pi_raw b) → p_balance (pi_raw a) = p_balance (pi_raw b) →
  p_status (pi_raw a) = p_status (pi_raw b) → p_comment (pi_raw a) = p_comment (pi_raw b) →
  pi_comment a = pi_comment b → a = b.
Proof. destruct a as [[] ?], b as [[] ?]. simpl. by intros -> -> -> -> -> -> ->. Qed.

(** A posting that already contains everything a source could add is left as it
    is. *)
Lemma merge_posting_absorbed y p :
  contains_source y p →
  merge_status (p_status (pi_raw y)) (p_status (pi_raw p)) = p_status (pi_raw y) →
  (p_balance (pi_raw y) = None → p_balance (pi_raw p) = None) →
  (unknown_account y → unknown_account p) →
  merge_posting y p = y.
Proof.
  intros [Ht Hl Hv] Hst Hb Hu. pose proof (merge_posting_refines y p) as Hr.
  apply posting_internal_eq.
  - rewrite merge_posting_account.
    destruct (bool_decide_reflect (UNKNOWN_ACCOUNT ∈ tags (pi_comment y))) as [Hy|]; [|done].
    rewrite (bool_decide_eq_true_2 (UNKNOWN_ACCOUNT ∈ tags (pi_comment p))); [done|]. by apply Hu.
  - apply Hr.
  - apply Hr.
  - rewrite merge_posting_balance. destruct (p_balance (pi_raw y)); auto.
  - by rewrite merge_posting_status.
  - apply Hr.
  - apply comment_eq.
    + rewrite merge_posting_lines. by apply merge_lines_sub.
    + intros t. rewrite merge_posting_tags. destruct (decide (t = UNKNOWN_ACCOUNT)) as [->|Hne].
      * split; [naive_solver|]. intros Hy. split; [done|]. by apply Hu.
      * split; [|by left]. intros [?|?]; [done|]. by apply Ht.
    + rewrite merge_posting_values. apply map_eq. intros k.
      destruct (value_tags (pi_comment p) !! k) as [v|] eqn:E.
      * rewrite (lookup_union_Some_l _ _ _ _ E). symmetry. by eapply lookup_weaken.
      * by rewrite lookup_union_r by done.
Qed.
Lemma merge_posting_idem x p : merge_posting (merge_posting x p) p = merge_posting x p.
Proof.
  apply merge_posting_absorbed.
  - apply merge_posting_contains.
  - rewrite merge_posting_status.
    by destruct (p_status (pi_raw x)) as [[]|], (p_status (pi_raw p)) as [[]|].
  - rewrite merge_posting_balance. by destruct (p_balance (pi_raw x)).
  - unfold unknown_account, has_tag. rewrite merge_posting_tags, decide_True by done. by intros [_ ?].
Qed.
Lemma merge_posting_self p : merge_posting p p = p.
Proof.
  apply merge_posting_absorbed; auto using contains_source_refl.
  by destruct (p_status (pi_raw p)) as [[]|].
Qed.

(** ** Representation is one to one *)
Lemma represents_merger m1 m2 j : represents m1 j → represents m2 j → m1 = m2.
Proof.
  intros [P1 D1 F1 T1 TD1] [P2 D2 F2 T2 TD2].
  destruct m1 as [[pa1 pd1 pf1] [ta1 td1]], m2 as [[pa2 pd2 pf2] [ta2 td2]]. simpl in *.
  assert (pd1 = pd2) as -> by (apply map_eq; intros d; by rewrite D1, D2).
  assert (td1 = td2) as -> by (apply map_eq; intros d; by rewrite TD1, TD2).
  assert (pf1 = pf2) as ->.
  { apply map_eq. intros f. apply option_eq. intros i. by rewrite F1, F2. }
  congruence.
Qed.
Lemma represents_journal m j1 j2 : represents m j1 → represents m j2 → j1 = j2.
Proof.
  intros [P1 D1 F1 T1 TD1] [P2 D2 F2 T2 TD2].
  destruct j1 as [ts1 ps1], j2 as [ts2 ps2]. simpl in *. f_equal.
  - assert (th_trn <$> trn_arena (m_trns m) = ts1) as <-.
    { rewrite T1, fmap_imap. apply list_eq. intros i. rewrite list_lookup_imap. by destruct (ts1 !! i). }
    rewrite T2, fmap_imap. apply list_eq. intros i. rewrite list_lookup_imap. by destruct (ts2 !! i).
  - rewrite P1 in P2. apply list_eq. intros i.
    assert (∀ x, ps1 !! i = Some x → ∃ y, ps2 !! i = Some y ∧ jp_trn x = jp_trn y ∧ jp_post x = jp_post y) as H.
    { intros x Hx. assert (((λ x, PostHolder (jp_trn x) (jp_post x)) <$> ps1) !! i =
                Some (PostHolder (jp_trn x) (jp_post x))) as E by by rewrite list_lookup_fmap, Hx.
      rewrite P2, list_lookup_fmap in E. destruct (ps2 !! i) as [y|]; simplify_eq/=. eauto. }
    destruct (ps1 !! i) as [x|] eqn:E1.
    + destruct (H x eq_refl) as (y & Hy & Ht & Hp). rewrite Hy. f_equal.
      assert (jp_date x = jp_date y); [|destruct x, y; simpl in *; congruence].
      assert (i ∈ positions (λ z, bool_decide (jp_date z = jp_date x)) ps1) as Hi.
      { apply elem_of_positions. exists x. by rewrite bool_decide_eq_true. }
      pose proof (D1 (jp_date x)) as E. rewrite D2 in E.
      assert (positions (λ z, bool_decide (jp_date z = jp_date x)) ps2 =
              positions (λ z, bool_decide (jp_date z = jp_date x)) ps1) as E'.
      { destruct (positions _ ps1), (positions _ ps2); simplify_eq/=; done. }
      rewrite <- E' in Hi. apply elem_of_positions in Hi as (y' & Hy' & Hb%bool_decide_eq_true).
      simplify_eq. done.
    + apply (f_equal length) in P2. rewrite !fmap_length in P2.
      apply lookup_ge_None in E1. symmetry. apply lookup_ge_None. lia.
Qed.
Lemma reachable_wf m j : reachable m → represents m j → journal_wf j.
Proof.
  intros Hr Hj. destruct (reachable_represents m Hr) as (j' & Hj' & Hwf).
  by rewrite (represents_journal m j j' Hj Hj').
Qed.

(** ** The built journal *)
Lemma fps_distinct_cons p ps :
  fps_distinct (p :: ps) ↔ (∀ q, q ∈ ps → ¬ share_fp p q) ∧ fps_distinct ps.
Proof.
  split.
  - intros H. split.
    + intros q [k Hk]%elem_of_list_lookup Hs. assert (0 = S k); [|lia]. by apply (H _ _ p q).
    + intros i k x y Hi Hk Hs. assert (S i = S k); [|lia]. by apply (H _ _ x y).
  - intros [H1 H2] i k x y Hi Hk Hs. destruct i as [|i], k as [|k]; simplify_eq/=; try done.
    + exfalso. eapply H1; [by eapply elem_of_list_lookup_2|done].
    + exfalso. eapply H1; [by eapply elem_of_list_lookup_2|]. by apply share_fp_sym.
    + f_equal. by apply (H2 _ _ x y).
Qed.
Global Instance fps_distinct_perm : Proper ((≡ₚ) ==> iff) fps_distinct.
Proof.
  intros l k Hp. induction Hp as [|x l k Hp IH|x y l|l k r _ IH1 _ IH2]; [done| | |by rewrite IH1].
  - rewrite !fps_distinct_cons, IH. by setoid_rewrite Hp.
  - rewrite !fps_distinct_cons. split; intros (H1 & H2 & H3); split_and!; try done.
    + intros q [->|Hq]%elem_of_cons; [|auto]. intros Hs%share_fp_sym. apply (H1 x); [left|done].
    + intros q Hq. apply H1. by right.
    + intros q [->|Hq]%elem_of_cons; [|auto]. intros Hs%share_fp_sym. apply (H1 y); [left|done].
    + intros q Hq. apply H1. by right.
Qed.

Lemma group_perm {A} (key : A → nat) (l : list A) n :
  (seq 0 n ≫= λ t, filter (λ x, key x = t) l) ≡ₚ filter (λ x, key x < n) l.
Proof.
  induction n as [|n IH].
  - simpl. replace (filter (λ x, key x < 0) l) with (@nil A); [done|].
    induction l as [|x l IHl]; [done|]. rewrite filter_cons_False; [done|lia].
  - rewrite seq_S, bind_app, IH. simpl. rewrite app_nil_r.
    clear IH. induction l as [|x l IHl]; [done|].
    destruct (decide (key x < n)) as [Hlt|Hge].
    + rewrite (filter_cons_True (λ x, key x < n)) by done.
      rewrite (filter_cons_True (λ x, key x < S n)) by lia.
      rewrite (filter_cons_False (λ x, key x = n)) by lia. simpl. by rewrite IHl.
    + rewrite (filter_cons_False (λ x, key x < n)) by done.
      destruct (decide (key x = n)) as [He|Hne].
      * rewrite (filter_cons_True (λ x, key x = n)) by done.
        rewrite (filter_cons_True (λ x, key x < S n)) by lia.
        rewrite <- Permutation_middle, IHl. done.
      * rewrite (filter_cons_False (λ x, key x = n)) by done.
        rewrite (filter_cons_False (λ x, key x < S n)) by lia. done.
Qed.
Lemma bind_imap_seq {A B C} (l : list A) (f : nat → A → B) (g : B → list C) (h : nat → list C) :
  (∀ t a, l !! t = Some a → g (f t a) = h t) → imap f l ≫= g = seq 0 (length l) ≫= h.
Proof.
  revert f h. induction l as [|a l IH]; intros f h H; [done|].
  cbn [length seq]. change (imap f (a :: l)) with (f 0 a :: imap (f ∘ S) l). rewrite !bind_cons.
  f_equal; [by apply H|]. rewrite <- fmap_S_seq. rewrite (IH (f ∘ S) (h ∘ S)).
  - generalize (seq 0 (length l)). intros s. induction s as [|x s IHs]; [done|].
    rewrite fmap_cons, !bind_cons. by rewrite IHs.
  - intros t b Hb. by apply (H (S t)).
Qed.
Lemma bind_fmap_out {A B C} (l : list A) (f : A → list B) (g : B → C) :
  (l ≫= λ x, g <$> f x) = g <$> (l ≫= f).
Proof. induction l as [|x l IH]; [done|]. rewrite !bind_cons, fmap_app. by rewrite IH. Qed.
Lemma filter_all {A} (P : A → Prop) `{∀ x, Decision (P x)} (l : list A) : (∀ x, x ∈ l → P x) → filter P l = l.
Proof.
  induction l as [|x l IH]; intros HP; [done|]. rewrite filter_cons_True by (apply HP; left).
  f_equal. apply IH. intros; apply HP; by right.
Qed.
Lemma journal_posts_perm j : (∀ x, x ∈ j_posts j → jp_trn x < length (j_trns j)) →
  all_posts (journal_trns j) ≡ₚ jp_post <$> j_posts j.
Proof.
  intros Hp. unfold all_posts, journal_trns.
  rewrite (bind_imap_seq _ _ _ (λ t, jp_post <$> filter (λ x, jp_trn x = t) (j_posts j))) by done.
  rewrite bind_fmap_out, group_perm, filter_all; done.
Qed.
Lemma build_inv ho m j out : hash_order_ok ho → represents m j → build ho m = Ok out →
  out = stable_sort (by_key tp_date) (journal_trns j).
Proof. intros Hho Hj. rewrite (build_refines ho Hho m j Hj). by intros [= <-]. Qed.
Lemma all_posts_perm l k : l ≡ₚ k → all_posts l ≡ₚ all_posts k.
Proof. unfold all_posts. by intros ->. Qed.
Lemma built_posts_perm ho m j out :
  hash_order_ok ho → represents m j → journal_wf j → build ho m = Ok out →
  all_posts out ≡ₚ jp_post <$> j_posts j.
Proof.
  intros Hho Hj Hwf ->%(build_inv ho m j); [|done..].
  rewrite (all_posts_perm _ (journal_trns j)) by apply stable_sort_perm.
  apply journal_posts_perm, Hwf.
Qed.

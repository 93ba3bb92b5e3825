(** The matcher finds what the expressions mean; the code with the expressions. *)
From stdpp Require Import gmap list.
From Verif Require Import MergeClaims.
From Verif Require Import Base Types SpecBase BaseProofs StrProofs CommentModel FingerprintModel NwCsvModel TzModel OcrModel PdfModel RegexModel RegexClaims RegexLaws.
From Coq Require Import Lia.
Local Open Scope nat_scope.

(** A match goes forward, or stays. *)
Lemma matches_forward r p q : matches r p q → q = p ∨ (q.1 = false ∧ ∃ y t, p.2 = y :: t ++ q.2).
Proof.
  assert (∀ p q q' : place, q = p ∨ (q.1 = false ∧ ∃ y t, p.2 = y :: t ++ q.2) →
    q' = q ∨ (q'.1 = false ∧ ∃ y t, q.2 = y :: t ++ q'.2) → q' = p ∨ (q'.1 = false ∧ ∃ y t, p.2 = y :: t ++ q'.2)) as Ht.
  { intros p' q1 q2 [->|[H1 (y & t & E)]] [->|[H2 (y' & t' & E')]]; auto.
    - right. split; [done|]. eauto.
    - right. split; [done|]. eauto.
    - right. split; [done|]. exists y, (t ++ y' :: t'). rewrite E, E'. cbn. by rewrite <- app_assoc. }
  induction 1; auto; [right; split; [done|]; by exists x, []|eapply Ht; eassumption|eapply Ht; eassumption].
Qed.
Lemma elem_of_bind_list {A B} (l : list A) (f : A → list B) y : y ∈ l ≫= f ↔ ∃ x, x ∈ l ∧ y ∈ f x.
Proof. rewrite elem_of_list_bind. naive_solver. Qed.

Lemma star_sound r body n p c q c' : (∀ p c q c', (q, c') ∈ body p c → matches r p q) →
  (q, c') ∈ star_run body n p c → matches (XStar r) p q.
Proof.
  intros Hb. revert p c. induction n as [|n IH]; intros p c; cbn [star_run].
  - intros [= -> ->]%elem_of_list_singleton. constructor.
  - intros [H|[= -> ->]%elem_of_list_singleton]%elem_of_app; [|constructor].
    apply elem_of_bind_list in H as ([p' c1] & [_ H1]%elem_of_list_filter & H2). econstructor; [by eapply Hb|by eapply IH].
Qed.
Lemma run_sound r p c q c' : (q, c') ∈ rx_run r p c → matches r p q.
Proof.
  revert p c q c'. induction r as [|neg items| | |a IHa b IHb|a IHa b IHb|a IHa|n a IHa]; intros [b0 s] c q c'; cbn [rx_run fst snd].
  - intros [= -> ->]%elem_of_list_singleton. constructor.
  - destruct s as [|x s]; [by intros ?%elem_of_nil|]. destruct (xorb _ _) eqn:E; [|by intros ?%elem_of_nil].
    intros [= -> ->]%elem_of_list_singleton. by constructor.
  - destruct b0; [|by intros ?%elem_of_nil]. intros [= -> ->]%elem_of_list_singleton. constructor.
  - destruct s; [|by intros ?%elem_of_nil]. intros [= -> ->]%elem_of_list_singleton. constructor.
  - intros ([p' c1] & H1 & H2)%elem_of_bind_list. econstructor; [by eapply IHa|by eapply IHb].
  - intros [H|H]%elem_of_app; [apply M_left|apply M_right]; eauto.
  - apply star_sound. intros. by eapply IHa.
  - intros ([p' c1] & [= -> ->] & H)%elem_of_list_fmap. constructor. by eapply IHa.
Qed.
Lemma star_complete r body n p q : (∀ p q, matches r p q → ∀ c, ∃ c', (q, c') ∈ body p c) →
  matches (XStar r) p q → length p.2 ≤ n → ∀ c, ∃ c', (q, c') ∈ star_run body n p c.
Proof.
  intros Hb Hm. remember (XStar r) as r' eqn:Er. revert n.
  induction Hm as [| | | | | | |r0 p|r0 p q q' H1 _ H2 IH|]; try discriminate; injection Er as ->; intros n Hn c.
  - exists c. destruct n; cbn [star_run]; [|apply elem_of_app; right]; by apply elem_of_list_singleton.
  - specialize (IH eq_refl). destruct (matches_forward _ _ _ H1) as [->|[_ (y & t & E)]]; [by apply IH|].
    rewrite E in Hn. cbn [length] in Hn. rewrite app_length in Hn. destruct n as [|n]; [lia|].
    destruct (Hb _ _ H1 c) as [c1 Hc1]. destruct (IH n ltac:(lia) c1) as [c2 Hc2]. exists c2. cbn [star_run]. apply elem_of_app. left.
    apply elem_of_bind_list. exists (q, c1). split; [|done]. apply elem_of_list_filter. split; [|done]. cbn [fst]. rewrite E. cbn [length].
    rewrite app_length. apply Nat.lt_succ_r, Nat.le_add_l.
Qed.
Lemma run_complete r p q : matches r p q → ∀ c, ∃ c', (q, c') ∈ rx_run r p c.
Proof.
  revert p q. induction r as [|neg items| | |a IHa b IHb|a IHa b IHb|a IHa|n a IHa]; intros p q H c.
  - inversion H; subst. exists c. by apply elem_of_list_singleton.
  - inversion H as [|? ? ? ? ? E| | | | | | | |]; subst. exists c. cbn [rx_run snd]. rewrite E. by apply elem_of_list_singleton.
  - inversion H; subst. exists c. by apply elem_of_list_singleton.
  - inversion H; subst. exists c. by apply elem_of_list_singleton.
  - inversion H as [| | | |? ? ? q1 ? H1 H2| | | | |]; subst. destruct (IHa _ _ H1 c) as [c1 Hc1]. destruct (IHb _ _ H2 c1) as [c2 Hc2].
    exists c2. cbn [rx_run]. apply elem_of_bind_list. by exists (q1, c1).
  - cbn [rx_run]. inversion H as [| | | | |? ? ? ? H1|? ? ? ? H1| | |]; subst.
    + destruct (IHa _ _ H1 c) as [c1 Hc1]. exists c1. apply elem_of_app. by left.
    + destruct (IHb _ _ H1 c) as [c1 Hc1]. exists c1. apply elem_of_app. by right.
  - cbn [rx_run]. apply (star_complete a); [done|done|lia].
  - inversion H as [| | | | | | | | |? ? ? ? H1]; subst. destruct (IHa _ _ H1 c) as [c1 Hc1]. cbn [rx_run]. eexists.
    apply elem_of_list_fmap. by exists (q, c1).
Qed.

Lemma find_some r before s m : rx_find r (match before with [] => true | _ => false end) before s = Some m →
  ∃ skipped s', s = skipped ++ s' ∧ m_before m = reverse before ++ skipped ∧ (∃ b, matches r (place_at (m_before m) s') (b, m_rest m)) ∧
    (∀ t u q, skipped = t ++ u → u ≠ [] → ¬ matches r (place_at (reverse before ++ t) (u ++ s')) q).
Proof.
  revert before. induction s as [|x s IH]; intros before; rewrite find_eq;
    (destruct (rx_run r _ []) as [|[[b rest] c] l] eqn:E; cbn [head]; [|intros [= <-]; cbn [m_before m_rest fst snd]]).
  - done.
  - exists [], []. split_and!; [done|by rewrite app_nil_r| |intros [] u q Ht Hu; by destruct u]. exists b.
    apply (run_sound r _ [] _ c). unfold place_at. assert (match reverse before with [] => true | _ => false end = match before with [] => true | _ => false end) as ->.
    { destruct before; [done|]. rewrite reverse_cons. by destruct (reverse before). }
    rewrite E. left.
  - intros H. destruct (IH (x :: before) H) as (sk & s' & -> & H1 & H2 & H3). exists (x :: sk), s'.
    rewrite reverse_cons, <- app_assoc in H1. split_and!; [done|done|done|]. intros [|y t] u q Ht Hu.
    + cbn [app] in Ht. rewrite <- Ht, app_nil_r. intros Hm. destruct (run_complete _ _ _ Hm []) as [c' Hc'].
      unfold place_at in Hc'. assert (match reverse before with [] => true | _ => false end = match before with [] => true | _ => false end) as Hb.
      { destruct before; [done|]. rewrite reverse_cons. by destruct (reverse before). }
      rewrite Hb in Hc'. cbn [app] in Hc'. rewrite E in Hc'. by apply elem_of_nil in Hc'.
    + injection Ht as <- Ht. intros Hm. apply (H3 t u q Ht Hu). rewrite reverse_cons, <- app_assoc. exact Hm.
  - exists [], (x :: s). split_and!; [done|by rewrite app_nil_r| |intros [] u q Ht Hu; by destruct u]. exists b.
    apply (run_sound r _ [] _ c). unfold place_at. assert (match reverse before with [] => true | _ => false end = match before with [] => true | _ => false end) as ->.
    { destruct before; [done|]. rewrite reverse_cons. by destruct (reverse before). }
    rewrite E. left.
Qed.
Lemma find_none r before s : rx_find r (match before with [] => true | _ => false end) before s = None →
  ∀ t u q, s = t ++ u → ¬ matches r (place_at (reverse before ++ t) u) q.
Proof.
  assert (∀ before : str, match reverse before with [] => true | _ => false end = match before with [] => true | _ => false end) as Hb.
  { intros [|y l]; [done|]. rewrite reverse_cons. by destruct (reverse l). }
  revert before. induction s as [|x s IH]; intros before; rewrite find_eq;
    (destruct (rx_run r _ []) as [|[[b rest] c] l] eqn:E; cbn [head]; [|done]).
  - intros _ t u q Ht Hm. symmetry in Ht. apply app_eq_nil in Ht as [-> ->]. rewrite app_nil_r in Hm.
    destruct (run_complete _ _ _ Hm []) as [c' Hc']. unfold place_at in Hc'. rewrite Hb, E in Hc'. by apply elem_of_nil in Hc'.
  - intros H [|y t] u q Ht Hm.
    + cbn [app] in Ht. subst u. rewrite app_nil_r in Hm. destruct (run_complete _ _ _ Hm []) as [c' Hc'].
      unfold place_at in Hc'. rewrite Hb, E in Hc'. by apply elem_of_nil in Hc'.
    + injection Ht as <- Ht. apply (IH (x :: before) H t u q Ht). rewrite reverse_cons, <- app_assoc. exact Hm.
Qed.

(** The leftmost match, and none only if there is none. *)
Lemma regex_leftmost r s m : rx_find r true [] s = Some m →
  ∃ s', s = m_before m ++ s' ∧ (∃ b, matches r (place_at (m_before m) s') (b, m_rest m)) ∧
    (∀ t u q, m_before m = t ++ u → u ≠ [] → ¬ matches r (place_at t (u ++ s')) q).
Proof.
  intros H. destruct (find_some r [] s m H) as (sk & s' & -> & H1 & H2 & H3). cbn [reverse app] in H1.
  exists s'. rewrite H1 in *. split_and!; [done|done|]. intros t u q Ht Hu. exact (H3 t u q Ht Hu).
Qed.
Lemma regex_is_match r s : rx_is_match r s = true ↔ ∃ before s' q, s = before ++ s' ∧ matches r (place_at before s') q.
Proof.
  unfold rx_is_match. destruct (rx_find r true [] s) as [m|] eqn:E.
  - split; [|done]. intros _. destruct (regex_leftmost _ _ _ E) as (s' & Hs & [b Hm] & _). by exists (m_before m), s', (b, m_rest m).
  - split; [done|]. intros (t & u & q & Hs & Hm). by destruct (find_none r [] s E t u q Hs).
Qed.

(** ** The code, with the expressions *)

Lemma regex_line_eq v f line c : rx_parse VALUE_TAG_RX = Some v → rx_parse FLAG_TAG_RX = Some f → parse_line line c = regex_line v f line c.
Proof.
  intros Hv Hf. pose proof (value_regex v line Hv) as H1. unfold parse_line, regex_line.
  destruct (rx_captures v line) as [g|], (value_tag_rx line) as [[key value]|]; try done.
  - unfold value_groups in H1. cbn [fmap option_fmap option_map fst snd] in H1.
    assert (group 1 g = Some key ∧ group 2 g = value) as [-> ->] by (split; congruence). done.
  - destruct (rx_iter f (S (length line)) true line) as [ms tail] eqn:E. destruct (flag_regex f line ms tail Hf E) as [-> _]. f_equal.
    clear. revert c. induction ms as [|m ms IH]; intros c; [done|]. apply IH.
Qed.
Lemma regex_comment_eq v f text : rx_parse VALUE_TAG_RX = Some v → rx_parse FLAG_TAG_RX = Some f →
  from_opt_comment (Some text) = regex_comment v f text.
Proof.
  intros Hv Hf. unfold from_opt_comment, regex_comment. generalize comment_new. induction (split_on NL text) as [|l ls IH]; intros c; [done|].
  cbn [foldl]. rewrite (regex_line_eq v f) by done. apply IH.
Qed.
Lemma regex_builder_eq r a v n : rx_parse VALID_FP_PART_RX = Some r →
  builder_new a v n = if rx_is_match r a then if rx_is_match r n then Ok (Builder [] a v n) else Err EBadNamespace else Err EBadAlgorithm.
Proof. intros H. rewrite !(fp_part_regex r _ H). unfold builder_new. by destruct (fp_part_rx a), (fp_part_rx n). Qed.
Lemma regex_offset_eq r r' s : rx_parse UTC_HOURS_RX = Some r → rx_parse UTC_HOURS_MINS_RX = Some r' →
  parse_utc_offset s = regex_utc_offset r r' s.
Proof.
  intros H H'. unfold parse_utc_offset, regex_utc_offset, regex_offset. rewrite (utc_regex r r' s H H').
  destruct (rx_captures r s); [done|]. by destruct (rx_captures r' s).
Qed.
Lemma regex_money_eq r s : rx_parse GBP_RX = Some r → gbp_value s = regex_money r s.
Proof.
  intros H. pose proof (gbp_regex r s H) as E. unfold gbp_value, regex_money.
  destruct (rx_captures r s) as [c|], (gbp_rx s) as [[[sg po] pe]|]; try done.
  unfold three, some3 in E. cbn [fmap option_fmap option_map fst snd] in E.
  assert (group 1 c = Some sg ∧ group 2 c = Some po ∧ group 3 c = Some pe) as (-> & -> & ->) by (split_and!; congruence). cbn [default from_option id].
  replace (bool_decide (Some sg = Some (s2l "-"))) with (str_eqb sg [MINUS]); [done|].
  unfold str_eqb. apply bool_decide_ext. split; [by intros ->|by intros [= ->]].
Qed.
Lemma regex_account_eq rs ra l : rx_parse SORT_CODE_RX = Some rs → rx_parse ACCT_NUM_RX = Some ra →
  account_name_in l =
    match wd_text <$> ln_words l with
    | t0 :: t1 :: t2 :: t3 :: _ =>
        if bool_decide (t0 = s2l "Account") && bool_decide (t1 = s2l "Number") && rx_is_match rs t2 && rx_is_match ra t3
        then Some (t2 ++ s2l " " ++ t3) else None
    | _ => None
    end.
Proof.
  intros Hs Ha. unfold account_name_in. destruct (ln_words l) as [|w0 [|w1 [|w2 [|w3 ws]]]]; [done..|]. cbn [fmap list_fmap].
  rewrite (sort_regex rs _ Hs), (acct_regex ra _ Ha). done.
Qed.

(** Proofs about parsing and formatting comments. *)
From Verif Require Import Base Types BaseProofs StrProofs CommentModel CommentClaims.
From Coq Require Import Lia.
Local Open Scope nat_scope.

Lemma tag_char_spec c : tag_char c = true ↔ c ≠ colon ∧ c ≠ space.
Proof.
  unfold tag_char. rewrite andb_true_iff, !negb_true_iff, !N.eqb_neq. done.
Qed.
Lemma tag_name_chars t : tag_name t → t ≠ [] ∧ Forall (λ c, tag_char c = true) t.
Proof. intros [H1 H2]. split; [done|]. apply Forall_forall. intros c Hc. apply tag_char_spec. auto. Qed.
Lemma tag_name_intro t : t ≠ [] → Forall (λ c, tag_char c = true) t → tag_name t.
Proof. intros H1 H2. split; [done|]. intros c Hc. apply tag_char_spec. by eapply Forall_forall in H2. Qed.
Lemma tag_char_colon : tag_char COLON = false. Proof. done. Qed.
Lemma tag_char_space : tag_char SPACE = false. Proof. done. Qed.

Lemma name_prefix t b : tag_name t →
  take_while tag_char (t ++ COLON :: b) = t ∧ drop_while tag_char (t ++ COLON :: b) = COLON :: b.
Proof. intros [_ H]%tag_name_chars. by apply take_while_app. Qed.
Lemma name_prefix_inj t t' b b' : tag_name t → tag_name t' → t ++ COLON :: b = t' ++ COLON :: b' → t = t' ∧ b = b'.
Proof.
  intros H H' E. destruct (name_prefix t b H) as [E1 E2]. destruct (name_prefix t' b' H') as [E3 E4].
  rewrite E in E1, E2. rewrite E3 in E1. rewrite E4 in E2. by simplify_eq.
Qed.

(** ** Value tags *)
Lemma value_tag_rx_Some line k v : value_tag_rx line = Some (k, v) →
  tag_name k ∧ ∃ sp, spaces sp ∧
    ((v = None ∧ line = sp ++ k ++ [COLON]) ∨
     (∃ sp' w, v = Some w ∧ line = sp ++ k ++ COLON :: sp' ++ w ∧ spaces sp' ∧ sp' ≠ [] ∧ w ≠ [] ∧ NL ∉ w ∧
        (w = [SPACE] ∨ ∃ c w', w = c :: w' ∧ c ≠ SPACE))).
Proof.
  unfold value_tag_rx. set (isp := λ c, (c =? SPACE)%N).
  pose proof (take_drop_while isp line) as E1.
  set (s := drop_while isp line) in *. pose proof (take_drop_while tag_char s) as E2.
  pose proof (take_while_all tag_char s) as Hk. pose proof (take_while_all isp line) as Hsp.
  assert (∀ l, Forall (λ c, isp c = true) l → spaces l) as Hspaces.
  { intros l H c Hc. eapply Forall_forall in H; [|exact Hc]. by apply N.eqb_eq in H. }
  destruct (take_while tag_char s) as [|k0 ks] eqn:Ek; [done|].
  destruct (drop_while tag_char s) as [|c after] eqn:Er; [done|].
  destruct (N.eqb_spec c COLON) as [->|]; [|done].
  destruct after as [|a after].
  - intros [= <- <-]. split; [by apply tag_name_intro|]. exists (take_while isp line). split; [auto|].
    left. split; [done|]. by rewrite <- E1 at 1; rewrite <- E2.
  - pose proof (take_drop_while isp (a :: after)) as E3. pose proof (take_while_all isp (a :: after)) as Hsp'.
    set (sp' := take_while isp (a :: after)) in *. set (w := drop_while isp (a :: after)) in *.
    destruct (existsb (λ c, (c =? NL)%N) w) eqn:Enl; [done|].
    assert (NL ∉ w) as Hnl.
    { intros Hin. assert (existsb (λ c, (c =? NL)%N) w = true); [|congruence].
      apply existsb_exists. exists NL. split; [by apply elem_of_list_In|by apply N.eqb_eq]. }
    assert (line = take_while isp line ++ (k0 :: ks) ++ COLON :: sp' ++ w) as EL.
    { by rewrite <- E1 at 1; rewrite <- E2, <- E3. }
    destruct sp' as [|p sp'']; [done|]. destruct w as [|w0 w'] eqn:Ew.
    + destruct sp'' as [|p' sp3]; [done|]. intros [= <- <-].
      split; [by apply tag_name_intro|]. exists (take_while isp line). split; [auto|]. right.
      assert (spaces (p :: p' :: sp3)) as Hss by auto.
      exists (p :: sp3), [SPACE]. split; [done|]. split.
      * assert (∀ l x, spaces (x :: l) → x :: l = l ++ [SPACE]) as Hrot.
        { induction l as [|y l IH]; intros x Hx; simpl; [f_equal; apply Hx; left|].
          assert (x = y) as ->.
          { rewrite (Hx x), (Hx y); [done|right; left|left]. }
          f_equal. apply IH. intros c Hc. apply Hx. by right. }
        assert (p :: p' :: sp3 = (p :: sp3) ++ [SPACE]) as Hr.
        { simpl. f_equal. apply Hrot. intros c Hc. apply Hss. by right. }
        rewrite EL at 1. rewrite app_nil_r. rewrite Hr. done.
      * split_and!; [|done|done| |by left].
        -- intros c Hc. apply Hss. apply elem_of_cons in Hc as [->|Hc]; [left|]. right. by right.
        -- rewrite elem_of_list_singleton. done.
    + intros E0. assert (Some (k0 :: ks, Some (w0 :: w')) = Some (k, v)) as [= <- <-] by (by destruct sp''). clear E0. split; [by apply tag_name_intro|]. exists (take_while isp line). split; [auto|]. right.
      exists (p :: sp''), (w0 :: w'). split_and!; [done|done|auto|done|done|done|]. right.
      exists w0, w'. split; [done|]. apply drop_while_head in Ew. by apply N.eqb_neq in Ew.
Qed.
Lemma value_tag_rx_line line k v : value_tag_rx line = Some (k, v) → value_line k line.
Proof.
  intros (Hk & sp & Hsp & H)%value_tag_rx_Some. split; [done|].
  destruct H as [[-> ->]|(sp' & w & -> & -> & H1 & H2 & H3 & _)].
  - exists sp, []. eauto.
  - exists sp, (sp' ++ w). eauto 10.
Qed.
Lemma value_line_rx line k : newline ∉ line → value_line k line → ∃ v, value_tag_rx line = Some (k, v).
Proof.
  intros Hnl (Hk & sp & tail & Hsp & -> & Ht). unfold value_tag_rx.
  rewrite drop_while_app.
  2:{ apply Forall_forall. intros c Hc. by apply N.eqb_eq, Hsp. }
  assert (∀ b, drop_while (λ c, (c =? SPACE)%N) (k ++ b) = k ++ b) as ->.
  { intros b. destruct Hk as [Hne Hc]. destruct k as [|c k]; [done|]. simpl.
    destruct (N.eqb_spec c SPACE) as [->|]; [|done]. destruct (Hc SPACE) as [_ []]; [left|done]. }
  change (colon :: tail) with (COLON :: tail). destruct (name_prefix k tail Hk) as [-> ->]. destruct k as [|c k]; [by destruct Hk|]. simpl.
  destruct tail as [|a tail]; [eauto|].
  destruct Ht as [?|(sp' & v & E & H1 & H2 & H3)]; [done|].
  assert (existsb (λ c, (c =? NL)%N) (drop_while (λ c, (c =? SPACE)%N) (a :: tail)) = false) as ->.
  { apply not_true_iff_false. intros (x & Hx & ->%N.eqb_eq)%existsb_exists. apply Hnl.
    apply elem_of_app. right. right. apply elem_of_app. right. right. rewrite <- (take_drop_while (λ c, (c =? SPACE)%N)).
    apply elem_of_app. right. by apply elem_of_list_In. }
  rewrite E. destruct sp' as [|s0 sp']; [done|]. assert (s0 = SPACE) as -> by (apply H1; left).
  simpl. destruct v as [|v0 v]; [done|].
  assert (spaces sp') as Hs by (intros x Hx; apply H1; by right).
  rewrite drop_while_app.
  2:{ apply Forall_forall. intros x Hx. by apply N.eqb_eq, Hs. }
  destruct (drop_while (λ c, (c =? SPACE)%N) (v0 :: v)) as [|x l] eqn:Ed; [|by destruct (take_while (λ c, (c =? SPACE)%N) (sp' ++ v0 :: v)); eauto].
  apply drop_while_nil in Ed.
  assert (take_while (λ c, (c =? SPACE)%N) (sp' ++ v0 :: v) = sp' ++ v0 :: v) as ->.
  { apply take_while_full, Forall_app_2; [|done]. apply Forall_forall. intros x Hx. by apply N.eqb_eq, Hs. }
  destruct (sp' ++ v0 :: v) eqn:Ee; [by destruct sp'|]. eauto.
Qed.
Lemma value_tag_rx_None line : newline ∉ line → value_tag_rx line = None ↔ ∀ k, ¬ value_line k line.
Proof.
  intros Hnl. split.
  - intros E k Hk. destruct (value_line_rx line k Hnl Hk) as [v E']. congruence.
  - intros H. destruct (value_tag_rx line) as [[k v]|] eqn:E; [|done]. by destruct (H k), (value_tag_rx_line _ _ _ E).
Qed.

(** ** Flag tags *)
Definition group (runs : list str) : str := runs ≫= λ r, r ++ [COLON].
Lemma group_cons r runs : group (r :: runs) = r ++ COLON :: group runs.
Proof. unfold group. simpl. by rewrite <- (assoc_L (++)). Qed.
Definition starts_flag (s : str) : Prop := ∃ t b, tag_name t ∧ s = t ++ COLON :: b.

Lemma flag_reps_spec fuel s m rest : length s ≤ fuel → flag_reps fuel s = (m, rest) →
  ∃ runs, Forall tag_name runs ∧ m = group runs ∧ s = m ++ rest ∧ ¬ starts_flag rest.
Proof.
  revert s m rest. induction fuel as [|fuel IH]; intros s m rest Hlen.
  - destruct s; [|simpl in Hlen; lia]. simpl. intros [= <- <-]. exists []. split_and!; [done..|].
    intros (t & b & _ & E). by destruct t.
  - cbn [flag_reps]. pose proof (take_drop_while tag_char s) as E. pose proof (take_while_all tag_char s) as Hall.
    assert (starts_flag s → ∃ b, drop_while tag_char s = COLON :: b ∧ take_while tag_char s ≠ []) as Hst.
    { intros (t & b & Ht & ->). destruct (name_prefix t b Ht) as [-> ->]. exists b. split; [done|]. apply Ht. }
    destruct (take_while tag_char s) as [|r0 r] eqn:Er.
    { intros [= <- <-]. exists []. split_and!; [done..|]. intros (b & _ & ?)%Hst. done. }
    destruct (drop_while tag_char s) as [|c rest0] eqn:Ed.
    { intros [= <- <-]. exists []. split_and!; [done..|]. intros (b & ? & ?)%Hst. done. }
    destruct (N.eqb_spec c COLON) as [->|Hne].
    + destruct (flag_reps fuel rest0) as [m' rest'] eqn:Ef. intros [= <- <-].
      destruct (IH rest0 m' rest') as (runs & H1 & -> & -> & H2).
      { rewrite <- E in Hlen. simpl in Hlen. rewrite app_length in Hlen. simpl in Hlen. lia. }
      { done. }
      exists ((r0 :: r) :: runs). split_and!.
      * constructor; [|done]. by apply tag_name_intro.
      * by rewrite group_cons.
      * rewrite <- E. simpl. rewrite <- (assoc_L (++)). done.
      * done.
    + intros [= <- <-]. exists []. split_and!; [done..|]. intros (b & [= -> ->] & _)%Hst. done.
Qed.
Lemma flag_reps_exact runs rest fuel : Forall tag_name runs → ¬ starts_flag rest →
  length (group runs ++ rest) ≤ fuel → flag_reps fuel (group runs ++ rest) = (group runs, rest).
Proof.
  intros H Hr. revert fuel. induction H as [|r runs Hrn H IH]; intros fuel Hf.
  - simpl. destruct (flag_reps fuel rest) as [m rest'] eqn:E.
    destruct (flag_reps_spec _ _ _ _ Hf E) as (runs & H1 & -> & E' & H2).
    change (rest = group runs ++ rest') in E'. destruct runs as [|r runs]; [by rewrite E'|]. destruct Hr. inversion_clear H1.
    exists r, (group runs ++ rest'). split; [done|]. rewrite E', group_cons, <- (assoc_L (++)). done.
  - rewrite group_cons in *. rewrite <- (assoc_L (++)) in *. simpl in *.
    destruct fuel as [|fuel]; [rewrite app_length in Hf; simpl in Hf; lia|]. cbn [flag_reps].
    destruct (name_prefix r (group runs ++ rest) Hrn) as [-> ->].
    destruct r as [|r0 r]; [by destruct Hrn|]. cbn [N.eqb]. rewrite N.eqb_refl.
    rewrite IH; [done|]. rewrite app_length in Hf. simpl in Hf. lia.
Qed.

Lemma flags_of_group_spec runs : runs ≠ [] → Forall tag_name runs → flags_of_group (group runs) = runs.
Proof.
  intros Hne H. unfold flags_of_group.
  assert (group runs = join [COLON] runs ++ [COLON]) as ->.
  { clear H. induction runs as [|r runs IH]; [done|]. rewrite group_cons. destruct runs as [|r' runs]; [done|].
    rewrite IH by done. change (join [COLON] (r :: r' :: runs)) with (r ++ COLON :: join [COLON] (r' :: runs)).
    rewrite <- (assoc_L (++)). done. }
  rewrite drop_while_end_app by by repeat constructor.
  destruct (exists_last Hne) as (rs & r & ->).
  apply Forall_app in H as [H1 H2]. inversion_clear H2 as [|? ? Hr _].
  assert (Forall (λ s, COLON ∉ s) (rs ++ [r])) as Hc.
  { apply Forall_app_2; [|constructor; [|done]].
    - eapply Forall_impl; [exact H1|]. intros x [_ Hx] Hin. by destruct (Hx COLON Hin).
    - intros Hin. destruct Hr as [_ Hx]. by destruct (Hx COLON Hin). }
  assert (∃ s x, join [COLON] (rs ++ [r]) = s ++ [x] ∧ x ≠ COLON) as (s & x & E & Hx).
  { destruct Hr as [Hrne Hrc]. destruct (exists_last Hrne) as (r' & x & ->).
    assert (x ≠ COLON) as Hx by (apply (Hrc x), elem_of_app; right; left).
    clear Hc Hne H1. induction rs as [|q rs IH].
    - exists r', x. done.
    - destruct IH as (s & y & E & Hy). simpl app. rewrite join_cons by (by destruct rs).
      rewrite E. exists (q ++ COLON :: s), y. split; [|done]. by rewrite <- (assoc_L (++)). }
  rewrite E, drop_while_end_id by (by apply N.eqb_neq). transitivity (split_on COLON (join [COLON] (rs ++ [r]))); [by rewrite E|]. by apply split_join.
Qed.

Lemma group_flags t runs : Forall tag_name runs → t ∈ runs → flag_in t (COLON :: group runs).
Proof.
  intros H. induction H as [|r runs Hr H IH]; [by intros ?%elem_of_nil|].
  rewrite group_cons. intros [->|Ht]%elem_of_cons.
  - split; [done|]. exists [], (group runs). done.
  - destruct (IH Ht) as (Hn & a & b & E). split; [done|]. exists (COLON :: r ++ a), b. simpl.
    rewrite E. rewrite <- (assoc_L (++)). done.
Qed.
Lemma flag_in_app t a s b : flag_in t s → flag_in t (a ++ s ++ b).
Proof.
  intros (Hn & x & y & ->). split; [done|]. exists (a ++ x), (y ++ b).
  rewrite <- !(assoc_L (++)). simpl. rewrite <- (assoc_L (++)). done.
Qed.
Lemma flag_in_app_l t a s : flag_in t s → flag_in t (a ++ s).
Proof. intros H. apply (flag_in_app t a s []) in H. by rewrite app_nil_r in H. Qed.
Lemma flag_in_app_r t s b : flag_in t s → flag_in t (s ++ b).
Proof. intros H. apply (flag_in_app t [] s b) in H. done. Qed.
Lemma no_flags_sub a s b : no_flags (a ++ s ++ b) → no_flags s.
Proof. intros H t Ht. by apply (H t), flag_in_app. Qed.
Lemma flag_in_cons t c s : c ≠ COLON → flag_in t (c :: s) → flag_in t s.
Proof.
  intros Hc (Hn & a & b & E). destruct a as [|x a]; simplify_eq/=. split; [done|]. by exists a, b.
Qed.

(** A tag found in a run of tags, or in what follows the run. *)
Lemma runs_find runs rest t a b : Forall tag_name runs → ¬ starts_flag rest → tag_name t →
  COLON :: group runs ++ rest = a ++ COLON :: t ++ COLON :: b → t ∈ runs ∨ flag_in t rest.
Proof.
  intros H Hr Ht. revert a. induction H as [|r runs Hrn H IH]; intros a E.
  - simpl in E. destruct a as [|x a]; simplify_eq/=.
    + destruct Hr. by exists t, b.
    + right. split; [done|]. by exists a, b.
  - rewrite group_cons, <- (assoc_L (++)) in E. simpl in E. destruct a as [|x a]; [injection E as E|injection E as Ex E].
    + apply name_prefix_inj in E as [-> _]; [left; left|done|done].
    + assert (∃ a', a = r ++ a') as (a' & ->).
      { clear -E Hrn. destruct Hrn as [_ Hc]. revert a E. induction r as [|y r IH]; intros a E; [by exists a|].
        destruct a as [|z a]; [injection E as -> E|injection E as -> E].
        - destruct (Hc COLON) as [[] _]; [left|done].
        - destruct (IH (λ c Hin, Hc c (elem_of_list_further _ _ _ Hin)) _ E) as (a' & ->). by exists a'. }
      rewrite <- (assoc_L (++)) in E. apply app_inv_head in E.
      destruct (IH _ E) as [?|?]; [left; by right|by right].
Qed.

Definition part : Type := str * list str.
Definition part_text (p : part) : str := p.1 ++ COLON :: group p.2.
Definition part_ok (p : part) : Prop := no_flags p.1 ∧ p.2 ≠ [] ∧ Forall tag_name p.2.
Lemma flag_scan_spec fuel acc s gs tail : length s ≤ fuel → flag_scan fuel acc s = (gs, tail) →
  (∀ a t b, tag_name t → reverse acc ++ s = a ++ COLON :: t ++ COLON :: b → length acc ≤ length a) →
  ∃ parts : list part, gs = (λ p, (p.1, group p.2)) <$> parts ∧ Forall part_ok parts ∧ no_flags tail ∧
    reverse acc ++ s = (parts ≫= part_text) ++ tail ∧
    ∀ t, flag_in t (reverse acc ++ s) → ∃ p, p ∈ parts ∧ t ∈ p.2.
Proof.
  assert (∀ acc tail, tail = reverse acc →
    (∀ a t b, tag_name t → reverse acc ++ [] = a ++ COLON :: t ++ COLON :: b → length acc ≤ length a) →
    ∃ parts : list part, [] = (λ p, (p.1, group p.2)) <$> parts ∧ Forall part_ok parts ∧ no_flags tail ∧
    reverse acc ++ [] = (parts ≫= part_text) ++ tail ∧
    ∀ t, flag_in t (reverse acc ++ []) → ∃ p, p ∈ parts ∧ t ∈ p.2) as Hbase.
  { clear. intros acc tail -> Hinv.
    assert (no_flags (reverse acc)) as Hn.
    { intros t (Ht & a & b & E). specialize (Hinv a t b Ht). rewrite app_nil_r in Hinv. specialize (Hinv E).
      apply (f_equal length) in E. rewrite reverse_length, app_length in E. simpl in E. lia. }
    exists []. rewrite app_nil_r. split_and!; [done..|]. intros t Ht. by destruct (Hn t). }
  revert acc s gs tail. induction fuel as [|fuel IH]; intros acc s gs tail Hlen Hs Hinv.
  { destruct s; [|simpl in Hlen; lia]. simpl in Hs. simplify_eq. apply Hbase; [by rewrite app_nil_r|done]. }
  destruct s as [|c s].
  { simpl in Hs. simplify_eq. by apply Hbase. }
  simpl in Hlen. cbn [flag_scan] in Hs.
  assert (flag_scan fuel (c :: acc) s = (gs, tail) → (c ≠ COLON ∨ ¬ starts_flag s) →
    ∃ parts : list part, gs = (λ p, (p.1, group p.2)) <$> parts ∧ Forall part_ok parts ∧ no_flags tail ∧
    reverse acc ++ c :: s = (parts ≫= part_text) ++ tail ∧
    ∀ t, flag_in t (reverse acc ++ c :: s) → ∃ p, p ∈ parts ∧ t ∈ p.2) as Hskip.
  { intros E Hns. assert (reverse acc ++ c :: s = reverse (c :: acc) ++ s) as Ea.
    { rewrite reverse_cons, <- (assoc_L (++)). done. }
    rewrite Ea. apply IH; [lia|done|]. rewrite <- Ea. intros a t b Ht E'.
    pose proof (Hinv a t b Ht E') as Hl. simpl. destruct (decide (length a = length acc)) as [El|]; [|lia].
    apply app_inj_1 in E' as [_ E']; [|by rewrite reverse_length]. simplify_eq.
    destruct Hns as [?|[]]; [done|]. by exists t, b. }
  destruct (N.eqb_spec c COLON) as [->|Hc]; [|by auto].
  destruct (flag_reps (length s) s) as [m rest] eqn:Er.
  destruct (flag_reps_spec _ _ _ _ (le_n _) Er) as (runs & Hruns & -> & E & Hnst).
  destruct runs as [|r runs].
  { simpl in *. apply Hskip; [done|]. right. by rewrite E. }
  destruct (group (r :: runs)) as [|g0 g] eqn:Eg.
  { rewrite group_cons in Eg. by destruct r. }
  rewrite <- Eg in E. clear Hskip.
  destruct (flag_scan fuel [] rest) as [ms tl] eqn:Ems.
  destruct (IH [] rest ms tl) as (parts & -> & Hok & Hnt & Eq & Hcomp); [|done| |].
  { subst s. rewrite app_length in Hlen. lia. }
  { simpl. lia. }
  injection Hs as <- <-. simpl in Eq, Hcomp.
  exists ((reverse acc, r :: runs) :: parts).
  assert (no_flags (reverse acc)) as Hna.
  { intros t (Ht & a & b & E'). specialize (Hinv a t (b ++ COLON :: s) Ht).
    rewrite E' in Hinv. rewrite <- !(assoc_L (++)) in Hinv. simpl in Hinv.
    rewrite <- !(assoc_L (++)) in Hinv. specialize (Hinv eq_refl).
    apply (f_equal length) in E'. rewrite reverse_length, app_length in E'. simpl in E'. lia. }
  split_and!.
  - rewrite fmap_cons; cbn [fst snd]. by rewrite Eg.
  - constructor; [|done]. by split_and!.
  - done.
  - csimpl. unfold part_text at 1. cbn [fst snd]. rewrite E. rewrite <- !(assoc_L (++)). simpl.
    rewrite <- !(assoc_L (++)). by rewrite Eq at 1.
  - intros t (Ht & a & b & E'). pose proof (Hinv a t b Ht E') as Hl.
    assert (∃ a', a = reverse acc ++ a') as (a' & ->).
    { exists (drop (length acc) a). rewrite <- (take_drop (length acc) a) at 1. f_equal.
      apply (f_equal (take (length acc))) in E'.
      rewrite take_app_alt in E' by (by rewrite reverse_length). rewrite E'.
      rewrite take_app_le by lia. done. }
    rewrite <- (assoc_L (++)) in E'. apply app_inv_head in E'. rewrite E in E'.
    destruct (runs_find _ _ _ _ _ Hruns Hnst Ht E') as [Hin|Hin].
    + eexists. split; [left|done].
    + destruct (Hcomp t Hin) as (p & Hp & Hpt). exists p. split; [by right|done].
Qed.
Lemma flag_scan_line line gs tail : flag_scan (length line) [] line = (gs, tail) →
  ∃ parts : list part, gs = (λ p, (p.1, group p.2)) <$> parts ∧ Forall part_ok parts ∧ no_flags tail ∧
    line = (parts ≫= part_text) ++ tail ∧
    ∀ t, flag_in t line ↔ ∃ p, p ∈ parts ∧ t ∈ p.2.
Proof.
  intros E. destruct (flag_scan_spec _ [] line gs tail (le_n _) E) as (parts & H1 & H2 & H3 & H4 & H5).
  { simpl. lia. }
  exists parts. split_and!; [done..|]. intros t. split; [apply H5|].
  intros (p & [x [y ->]]%elem_of_list_split & Ht). apply Forall_app in H2 as [_ H2]. inversion_clear H2 as [|? ? Hp].
  simpl in H4. rewrite H4, bind_app. csimpl. rewrite <- !(assoc_L (++)). apply flag_in_app.
  unfold part_text. apply flag_in_app_l, group_flags; [apply Hp|done].
Qed.
Lemma flag_scan_none line : no_flags line → flag_scan (length line) [] line = ([], line).
Proof.
  intros Hn. destruct (flag_scan (length line) [] line) as [gs tail] eqn:E.
  destruct (flag_scan_line _ _ _ E) as (parts & -> & H2 & H3 & H4 & H5).
  destruct parts as [|p parts]; [by simpl in *; subst|].
  inversion_clear H2 as [|? ? (Hp1 & Hp2 & Hp3)]. destruct p as [px [|t ts]]; [done|].
  destruct (Hn t). apply H5. eexists. split; [left|left].
Qed.

(** ** One line *)
Definition keep (ts : list str) : list str := filter (λ t, t ≠ []) (trim <$> ts).
Lemma keep_app a b : keep (a ++ b) = keep a ++ keep b.
Proof. unfold keep. by rewrite fmap_app, filter_app. Qed.
Lemma push_text_keep t c : push_text t c = Comment (lines c ++ keep [t]) (tags c) (value_tags c).
Proof.
  unfold push_text, keep. csimpl. destruct (trim t) as [|x y] eqn:E.
  - rewrite filter_cons_False by (by intros []). simpl. rewrite app_nil_r. by destruct c.
  - by rewrite filter_cons_True.
Qed.
Lemma add_flags_spec (g : list str) (t : gset str) : foldl (λ t f, {[f]} ∪ t) t g = t ∪ list_to_set g.
Proof.
  revert t. induction g as [|x g IH]; intros t; simpl.
  - set_solver.
  - rewrite IH. set_solver.
Qed.
Definition part_flags (parts : list part) : list str := parts ≫= snd.
Lemma elem_of_part_flags t parts : t ∈ part_flags parts ↔ ∃ p, p ∈ parts ∧ t ∈ p.2.
Proof. unfold part_flags. rewrite elem_of_list_bind. naive_solver. Qed.
Lemma parse_line_text line c : value_tag_rx line = None →
  ∃ (parts : list part) tail, Forall part_ok parts ∧ no_flags tail ∧ line = (parts ≫= part_text) ++ tail ∧
    (∀ t, flag_in t line ↔ ∃ p, p ∈ parts ∧ t ∈ p.2) ∧
    parse_line line c =
      Comment (lines c ++ keep ((fst <$> parts) ++ [tail])) (tags c ∪ list_to_set (part_flags parts)) (value_tags c).
Proof.
  intros Hv. unfold parse_line. rewrite Hv.
  destruct (flag_scan (length line) [] line) as [gs tail] eqn:E.
  destruct (flag_scan_line _ _ _ E) as (parts & -> & H2 & H3 & H4 & H5).
  exists parts, tail. split_and!; [done..|]. clear E H4 H5 Hv.
  rewrite push_text_keep. revert c. induction H2 as [|p parts (Hp1 & Hp2 & Hp3) H IH]; intros c.
  - simpl. f_equal. set_solver.
  - csimpl. rewrite IH. clear IH. rewrite flags_of_group_spec by done. rewrite push_text_keep.
    unfold set_tags. cbn [lines tags value_tags]. rewrite add_flags_spec. f_equal.
    + rewrite <- (assoc_L (++)). by rewrite <- (keep_app [p.1]).
    + unfold part_flags. csimpl. rewrite list_to_set_app_L. set_solver.
Qed.
Lemma parse_line_value line c k v : value_tag_rx line = Some (k, v) →
  parse_line line c = Comment (lines c) (tags c) (<[k := default [] v]> (value_tags c)).
Proof. intros E. unfold parse_line. by rewrite E. Qed.

Lemma parse_line_plain l c : value_tag_rx l = None → no_flags l → l ≠ [] → trim l = l →
  parse_line l c = Comment (lines c ++ [l]) (tags c) (value_tags c).
Proof.
  intros Hv Hn Hne Ht. unfold parse_line. rewrite Hv, flag_scan_none by done. simpl.
  unfold push_text. rewrite Ht. by destruct l.
Qed.
Lemma value_tag_rx_colon s : value_tag_rx (COLON :: s) = None.
Proof. done. Qed.
(** A run of tags, alone on a line or followed by a space and text. *)
Lemma parse_line_tags runs rest c : runs ≠ [] → Forall tag_name runs → rest = [] ∨ (∃ l, rest = SPACE :: l) → no_flags rest →
  parse_line (COLON :: group runs ++ rest) c =
    Comment (lines c ++ keep [rest]) (tags c ∪ list_to_set runs) (value_tags c).
Proof.
  intros Hne Hruns Hrest Hn. unfold parse_line. rewrite value_tag_rx_colon.
  assert (¬ starts_flag rest) as Hst.
  { intros (t & b & Ht & ->). destruct Hrest as [E|(l & E)]; [by destruct t|].
    destruct t as [|x t]; [by destruct Ht|]. simplify_eq/=. destruct Ht as [_ Ht]. destruct (Ht SPACE) as [_ []]; [left|done]. }
  cbn [length flag_scan]. change (COLON =? COLON)%N with true. cbn [flag_scan].
  rewrite (flag_reps_exact runs rest) by done.
  destruct (group runs) as [|g0 g] eqn:Eg.
  { destruct runs as [|r runs]; [done|]. rewrite group_cons in Eg. by destruct r. }
  rewrite <- Eg.
  destruct (flag_scan (length (group runs ++ rest)) [] rest) as [ms tail] eqn:Es.
  destruct (flag_scan_spec (length (group runs ++ rest)) [] rest ms tail) as (parts & -> & H2 & H3 & H4 & H5).
  { rewrite app_length. lia. }
  { done. }
  { simpl. lia. }
  destruct parts as [|p parts].
  2:{ inversion_clear H2 as [|? ? (Hp1 & Hp2 & Hp3)]. destruct p as [px [|t ts]]; [done|].
      destruct (Hn t). simpl in H4. rewrite H4. csimpl. apply flag_in_app_r, flag_in_app_r. unfold part_text.
      apply flag_in_app_l, group_flags; [done|left]. }
  simpl in H4. subst tail. csimpl. rewrite flags_of_group_spec by done.
  rewrite !push_text_keep. unfold set_tags. cbn [lines tags value_tags]. rewrite add_flags_spec. f_equal.
  change (keep [reverse []]) with (@nil str). by rewrite app_nil_r.
Qed.
Lemma parse_line_pair k v c : tag_name k → v ≠ [] → trim v = v → newline ∉ v →
  parse_line (k ++ [COLON; SPACE] ++ v) c = Comment (lines c) (tags c) (<[k := v]> (value_tags c)).
Proof.
  intros Hk Hne Htv Hnl. rewrite (parse_line_value _ c k (Some v)); [done|].
  unfold value_tag_rx.
  assert (∀ b, drop_while (λ c, (c =? SPACE)%N) (k ++ b) = k ++ b) as ->.
  { intros b. destruct Hk as [Hkne Hc]. destruct k as [|x k]; [done|]. simpl.
    destruct (N.eqb_spec x SPACE) as [->|]; [|done]. destruct (Hc SPACE) as [_ []]; [left|done]. }
  simpl. destruct (name_prefix k (SPACE :: v) Hk) as [-> ->].
  destruct k as [|k0 k]; [by destruct Hk|]. change (COLON =? COLON)%N with true. cbn [take_while drop_while].
  change (SPACE =? SPACE)%N with true. cbn [take_while drop_while].
  apply trim_bare_iff in Htv; [|done]. destruct Htv as (_ & Hhd & _). destruct v as [|v0 v]; [done|].
  specialize (Hhd v0 v eq_refl). assert (v0 =? SPACE = false)%N as E0.
  { apply N.eqb_neq. intros ->. done. }
  cbn [take_while drop_while]. rewrite E0.
  assert (existsb (λ c, (c =? NL)%N) (v0 :: v) = false) as ->; [|done].
  apply not_true_iff_false. intros (x & Hx & ->%N.eqb_eq)%existsb_exists. apply Hnl. by apply elem_of_list_In.
Qed.

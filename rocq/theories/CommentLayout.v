(** The layout of written comments (C103). *)
From Verif Require Import Base Types SpecBase BaseProofs StrProofs CommentModel CommentClaims CommentProofs CommentLaws CommentTextClaims CmdClaims CmdProofs
  LayoutClaims.
From Coq Require Import Lia.
Local Open Scope nat_scope.

Lemma sorted_filter ho ts (P : str → Prop) `{∀ t, Decision (P t)} : hash_order_ok ho →
  sorted_list (λ t, t ∈ ts ∧ P t) (stable_sort str_leb (filter P (ho_set ho ts))).
Proof.
  intros (Hs & _ & _). set (l := stable_sort _ _).
  assert (l ≡ₚ filter P (elements ts)) as Hp by (unfold l; by rewrite stable_sort_perm, (Hs ts)).
  split.
  - assert (StronglySorted (λ a b, str_leb a b = true) l) as Hso by (apply stable_sort_sorted; [apply str_leb_total|apply str_leb_trans]).
    assert (NoDup l) as Hnd by (rewrite Hp; apply NoDup_filter, NoDup_elements). clearbody l. clear -Hso Hnd.
    induction Hso as [|x l Hl IH Hx]; [constructor|]. apply NoDup_cons in Hnd as [Hn Hnd]. constructor; [by apply IH|].
    rewrite Forall_forall in *. intros y Hy. apply str_leb_lt; [by apply Hx|]. intros ->. done.
  - intros t. rewrite Hp, elem_of_list_filter, elem_of_elements. tauto.
Qed.
Lemma sorted_list_ext (P Q : str → Prop) l : (∀ t, P t ↔ Q t) → sorted_list P l → sorted_list Q l.
Proof. intros E [H1 H2]. split; [done|]. intros t. by rewrite H2. Qed.
Lemma tags_layout ho ts : hash_order_ok ho → tags_written ts (format_tags ho ts).
Proof.
  intros Hho. eexists _, _. split; [|split; [|]].
  - eapply sorted_list_ext; [|apply (sorted_filter ho ts (λ t, is_true (utf8_len t <=? MAX_INLINE_TAG_LEN)%N) Hho)].
    intros t. cbn beta. change MAX_INLINE_TAG_LEN with 12%N. unfold is_true. by rewrite N.leb_le.
  - eapply sorted_list_ext; [|apply (sorted_filter ho ts (λ t, is_true (negb (utf8_len t <=? MAX_INLINE_TAG_LEN)%N)) Hho)].
    intros t. cbn beta. change MAX_INLINE_TAG_LEN with 12%N. unfold is_true. by rewrite negb_true_iff, N.leb_gt.
  - unfold format_tags. apply f_equal2; [|reflexivity]. set (l := filter _ _).
    pose proof (stable_sort_perm str_leb l) as Hp. destruct l as [|x l]; [reflexivity|]. rewrite decide_False.
    2:{ intros E. rewrite E in Hp. by apply Permutation_nil_cons in Hp. }
    set (k := stable_sort str_leb (x :: l)) in *. assert (k ≠ []) as Hk by (intros E; rewrite E in Hp; by apply Permutation_nil_cons in Hp).
    clearbody k. apply f_equal2; [|reflexivity]. change (s2l ":") with [COLON]. apply f_equal. clear -Hk.
    induction k as [|y k IH]; [done|]. destruct k as [|z k].
    + cbn. by rewrite app_nil_r.
    + change (join [COLON] (y :: z :: k)) with (y ++ [COLON] ++ join [COLON] (z :: k)). rewrite bind_cons, <- !(assoc_L (++)).
      apply f_equal, (f_equal (app [COLON])), IH. done.
Qed.
Lemma texts_layout out ls : texts_written out ls (format_lines out ls).
Proof.
  destruct out as [|o out], ls as [|l ls]; cbn [format_lines].
  - by left.
  - by left.
  - right. left. done.
  - right. right. by exists o, out, l, ls.
Qed.
Lemma values_layout ho m : hash_order_ok ho → values_written m (format_values ho m).
Proof.
  intros Hho. destruct (sorted_values_spec ho m Hho) as (S1 & S2 & _). eexists. split; [|split].
  - apply StronglySorted_lt; [|exact S2]. clear S1 S2.
    assert (∀ l : list (str * str), StronglySorted (λ a b, pair_leb a b = true) l → StronglySorted (λ a b, str_leb a.1 b.1 = true) l) as H.
    { induction 1 as [|x l Hl IH Hx]; constructor; [done|]. eapply Forall_impl; [exact Hx|]. intros y. unfold pair_leb.
      destruct (str_eqb x.1 y.1) eqn:E; [|done]. intros _. unfold str_eqb in E. apply bool_decide_eq_true in E. rewrite E. apply str_leb_refl. }
    apply H, stable_sort_sorted; [apply pair_leb_total|apply pair_leb_trans].
  - intros k v. apply (S1 (k, v)).
  - unfold format_values. apply list_fmap_ext. by intros i [k v] _.
Qed.
Lemma join_written l ls : join [NL] (l :: ls) = l ++ (ls ≫= λ l, newline :: l).
Proof.
  revert l. induction ls as [|x ls IH]; intros l; [cbn; by rewrite app_nil_r|].
  change (join [NL] (l :: x :: ls)) with (l ++ [NL] ++ join [NL] (x :: ls)). rewrite IH, bind_cons. done.
Qed.
Lemma comment_layout ho c : hash_order_ok ho → ∃ out, layout c out ∧ written out (into_opt_comment ho c).
Proof.
  intros Hho. eexists. split.
  - eexists _, _, _. split; [by apply (tags_layout ho)|]. split; [apply texts_layout|]. split; [by apply (values_layout ho)|]. reflexivity.
  - unfold into_opt_comment. destruct (_ ++ _) as [|l ls]; [done|]. exists l, ls. split; [done|]. apply join_written.
Qed.

(** The layout is unique. *)
Lemma sorted_nodup l : StronglySorted str_lt l → NoDup l.
Proof.
  induction 1 as [|x l Hl IH Hx]; constructor; [|done]. intros Hin. rewrite Forall_forall in Hx. by apply (str_lt_irrefl x), Hx.
Qed.
Lemma sorted_list_fun P l l' : sorted_list P l → sorted_list P l' → l = l'.
Proof.
  intros [H1 E1] [H2 E2]. apply (sorted_perm_unique str_leb); [apply str_leb_antisym|by apply sorted_lt_leb..|].
  apply NoDup_Permutation; [by apply sorted_nodup..|]. intros t. by rewrite E1, E2.
Qed.
Lemma layout_fun c out out' : layout c out → layout c out' → out = out'.
Proof.
  intros (tg & tx & vs & (sh & lo & S1 & L1 & ->) & T1 & (k1 & K1 & V1 & ->) & ->) (tg' & tx' & vs' & (sh' & lo' & S2 & L2 & ->) & T2 & (k2 & K2 & V2 & ->) & ->).
  assert (sh' = sh) as -> by (by eapply sorted_list_fun). assert (lo' = lo) as -> by (by eapply sorted_list_fun).
  assert (k2 = k1) as ->.
  { assert (k2.*1 = k1.*1) as E.
    { apply (sorted_list_fun (λ t, t ∈ k2.*1)); (split; [done|]).
      - intros t. reflexivity.
      - intros t. rewrite !elem_of_list_fmap. split; intros ([k v] & -> & H); (exists (k, v); split; [done|]).
        + apply V2. by apply V1.
        + apply V1. by apply V2. }
    apply list_eq. intros i. assert ((k2.*1) !! i = (k1.*1) !! i) as Ei by congruence. rewrite !list_lookup_fmap in Ei.
    destruct (k2 !! i) as [[a b]|] eqn:E2, (k1 !! i) as [[a' b']|] eqn:E1; cbn in Ei; try done. injection Ei as <-.
    assert (value_tags c !! a = Some b) as Hb by (apply V2; by eapply elem_of_list_lookup_2).
    assert (value_tags c !! a = Some b') as Hb' by (apply V1; by eapply elem_of_list_lookup_2). congruence. }
  f_equal. destruct T1 as [[E ->]|[[E ->]|(t & ts & x & xs & E & El & ->)]], T2 as [[E' ->]|[[E' ->]|(t' & ts' & x' & xs' & E' & El' & ->)]]; try congruence.
  - rewrite E', E in *. done.
  - rewrite E, E' in *. done.
Qed.

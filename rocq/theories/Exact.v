(** Exactly which comments are read back as they were written (C31). *)
From Verif Require Import MergeClaims.
From Verif Require Import Base Types SpecBase BaseProofs StrProofs CommentModel CommentClaims CommentTextClaims CommentProofs CommentLaws CommentText CommentTags
  CmdClaims CmdProofs LayoutClaims CommentLayout RereadClaims Reread RewriteClaims Rewrite ExactClaims.
Local Open Scope nat_scope.

Lemma vals_sorted (m : gmap str str) : StronglySorted str_lt ((vals m).*1).
Proof.
  destruct (vals_spec m) as [_ Hnd].
  assert (StronglySorted (λ a b, pair_leb a b = true) (vals m)) as H by (apply stable_sort_sorted; [apply pair_leb_total|apply pair_leb_trans]).
  induction H as [|p ps H IH Hp]; csimpl; [constructor|]. inversion_clear Hnd as [|? ? Hk Hnd']. constructor; [by apply IH|].
  apply Forall_fmap, Forall_forall. intros q Hin. rewrite Forall_forall in Hp. pose proof (Hp q Hin) as Hq. cbn in *. assert (p.1 ≠ q.1) as Hne. { intros E. apply Hk. rewrite E. by apply elem_of_list_fmap_1. }
  apply str_leb_lt; [|done]. unfold pair_leb, str_eqb in Hq. by rewrite bool_decide_false in Hq.
Qed.
Lemma blanks_sorted m : StronglySorted str_lt (blanks m).
Proof.
  unfold blanks. pose proof (vals_sorted m) as H. induction (vals m) as [|p ps IH]; csimpl; [constructor|]. inversion_clear H as [|? ? Hs Hf].
  case_decide; [|by apply IH]. constructor; [by apply IH|]. apply Forall_forall. intros k (q & Hq & E)%elem_of_list_omap. case_decide; [|done]. injection E as <-.
  rewrite Forall_fmap, Forall_forall in Hf. by apply Hf.
Qed.
Lemma conv_none l : newline ∉ l → conv l = None ↔ ∀ k, ¬ value_line k l.
Proof. intros Hn. rewrite <- value_tag_rx_None by done. unfold conv. by destruct (value_tag_rx l) as [[]|]. Qed.
Lemma texts_of_app a b : texts_of (a ++ b) = texts_of a ++ texts_of b.
Proof. apply filter_app. Qed.
Lemma texts_of_id l : Forall (λ l, conv l = None) l → texts_of l = l.
Proof. induction 1 as [|x l Hx Hl IH]; [done|]. unfold texts_of in *. rewrite filter_cons_True by done. by rewrite IH. Qed.

Lemma exact_step ho c : hash_order_ok ho → from_opt_comment (into_opt_comment ho c) = c ↔ ordinary c ∧ step c = c.
Proof.
  intros Hho. split.
  - intros H. assert (ordinary c) as Ho. { rewrite <- H. apply written_ordinary; [done|]. rewrite <- H. apply from_opt_comment_shape. }
    split; [done|]. by rewrite <- (reread_step ho).
  - intros [Ho H]. by rewrite (reread_step ho).
Qed.
Lemma step_exact c : ordinary c ∧ step c = c ↔ read_back_as_written c.
Proof.
  split.
  - intros [[Hs Hk] H].
    assert (texts_of (rest c) ++ blank_lines (value_tags c) = rest c) as HR.
    { pose proof (f_equal lines H) as E. unfold step in E. cbn [lines] in E. exact (app_inv_head _ _ _ (eq_trans E (eq_sym (firsts_rest c)))). }
    assert (texts_of (blank_lines (value_tags c)) = []) as HB.
    { pose proof (f_equal texts_of HR) as E. rewrite texts_of_app, (texts_of_id (texts_of _)) in E by apply texts_of_texts.
      apply (app_inv_head (texts_of (rest c))). by rewrite E, app_nil_r. }
    assert (∀ k v, value_tags c !! k = Some v → trim k = k ∧ trim v = v) as Ht.
    { intros k v Hkv. rewrite <- H in Hkv. unfold step in Hkv. cbn [value_tags] in Hkv. apply puts_in in Hkv as [Hkv|Hkv].
      - apply puts_in in Hkv as [Hkv|Hkv]; [by rewrite lookup_empty in Hkv|]. apply elem_of_list_omap in Hkv as (l & Hl & Hc).
        rewrite <- HR in Hl. apply elem_of_app in Hl as [Hl|Hl]; [apply elem_of_list_filter in Hl as [Hl _]; congruence|].
        apply blank_lines_elem in Hl as (k' & v' & Hkv' & _ & ->). rewrite conv_colon in Hc by (apply trim_name; [by eapply (ps_keys c Hs)|by eapply Hk]).
        injection Hc as <- <-. split; [apply trim_trim|done].
      - apply elem_of_list_omap in Hkv as ([k' v'] & _ & E). unfold written_pair in E. case_decide; [done|]. injection E as <- <-. by rewrite !trim_trim. }
    rewrite (blank_lines_plain (value_tags c)) in HR by (intros k v Hkv; exact (proj1 (Ht k v Hkv))).
    split.
    + apply (ps_tags c Hs).
    + apply (ps_lines c Hs).
    + intros k v Hkv. destruct (ps_keys c Hs k v Hkv). split_and!; [done|exact (proj1 (Ht k v Hkv))|done].
    + intros k v Hkv. split; [exact (proj2 (Ht k v Hkv))|by eapply (ps_values c Hs)].
    + exists (firsts c ++ texts_of (rest c)), (blanks (value_tags c)). split_and!.
      * rewrite <- (assoc_L (++)). rewrite <- (firsts_rest c) at 1. f_equal. symmetry. exact HR.
      * split; [apply blanks_sorted|]. intros k. rewrite blanks_elem. split; [|intros Hv; by exists []].
        intros (v & Hv & Hb). destruct (Ht _ _ Hv) as [_ Htv]. rewrite <- Htv, Hb in Hv. exact Hv.
      * intros i l k Hl Hi. assert (l ∈ texts_of (rest c)) as Hin.
        { unfold firsts in Hl. destruct (decide (tags c = ∅)) as [Et|Et]; [by apply elem_of_list_lookup_2 in Hl|]. destruct Hi as [Hi|Hi]; [|done].
          rewrite lookup_app_r in Hl; [by apply elem_of_list_lookup_2 in Hl|]. rewrite take_length. lia. }
        apply elem_of_list_filter in Hin as [Hc Hin]. assert (newline ∉ l) as Hn.
        { apply (ps_lines c Hs). rewrite <- firsts_rest. apply elem_of_app. by right. }
        by apply (conv_none l Hn).
      * intros [Ef Et]%app_eq_nil. destruct (decide (tags c = ∅)) as [E|E]; [by right|]. left. unfold firsts in Ef. rewrite decide_False in Ef by done.
        unfold rest in HR. rewrite decide_False in HR by done. destruct (lines c); [|done]. rewrite drop_nil in HR. apply app_eq_nil in HR as [_ HR].
        by apply fmap_nil_inv in HR.
  - intros [R1 R2 R3 R4 (texts & blank & El & Hb & Hv & He)].
    assert (ordinary c) as Ho.
    { split.
      - split; [done|done|..].
        + intros k v Hkv. by destruct (R3 k v Hkv) as (? & _ & ?).
        + intros k v Hkv. by apply (R4 k v).
      - intros k v Hkv E. destruct (R3 k v Hkv) as ([Hne _] & Ht & _). congruence. }
    split; [done|].
    assert (blank = blanks (value_tags c)) as Eb.
    { eapply sorted_list_fun; [exact Hb|]. split; [apply blanks_sorted|]. intros k. rewrite blanks_elem. split; [|intros Hk; by exists []].
      intros (v & Hk & Hbl). destruct (R4 _ _ Hk) as [Htv _]. rewrite <- Htv, Hbl in Hk. exact Hk. }
    assert (∃ n, rest c = n ++ colons blank ∧ Forall (λ l, conv l = None) n) as (n & Er & Hn).
    { assert (∀ l, l ∈ texts → newline ∉ l) as Hnl. { intros l Hl. apply R2. rewrite El. apply elem_of_app. by left. }
      unfold rest. rewrite El. case_decide as Et.
      - exists texts. split; [done|]. apply Forall_forall. intros l Hl. apply conv_none; [by apply Hnl|]. intros k.
        apply elem_of_list_lookup in Hl as [i Hi]. apply (Hv i l k Hi). by right.
      - destruct texts as [|l texts].
        + destruct He as [->|?]; [done| |done]. by exists [].
        + exists texts. split; [done|]. apply Forall_forall. intros x Hx. apply conv_none; [apply Hnl; by right|]. intros k.
          apply elem_of_list_lookup in Hx as [i Hi]. apply (Hv (S i) x k Hi). by left. }
    destruct (texts_colons n blank Hn) as [H1 H2]. { rewrite Eb. by apply blanks_names. }
    assert (∀ k v, value_tags c !! k = Some v → trim k = k) as Hk by (intros k v Hkv; by destruct (R3 k v Hkv) as (_ & ? & _)).
    unfold step. rewrite Er, H1, H2. change (omap written_blank (vals (value_tags c))) with (blank_lines (value_tags c)).
    rewrite blank_lines_plain, puts_plain by done. rewrite <- Eb, <- Er, firsts_rest, Eb, kept_blanks.
    destruct c as [ls ts m]. cbn [lines tags value_tags] in *. f_equal. apply map_eq. intros k. rewrite lookup_fmap. destruct (m !! k) as [v|] eqn:E; [|done].
    cbn. f_equal. by apply (R4 k v).
Qed.
Lemma exact_round_trip ho c : hash_order_ok ho → from_opt_comment (into_opt_comment ho c) = c ↔ read_back_as_written c.
Proof. intros Hho. rewrite exact_step by done. apply step_exact. Qed.
Lemma exact_fixed_points ho s : hash_order_ok ho → into_opt_comment ho (from_opt_comment s) = s ↔ ∃ c, read_back_as_written c ∧ into_opt_comment ho c = s.
Proof.
  intros Hho. split.
  - intros H. exists (from_opt_comment s). split; [|done]. apply (exact_round_trip ho); [done|]. by rewrite H.
  - intros (c & Hc & <-). by rewrite (proj2 (exact_round_trip ho c Hho) Hc).
Qed.

(** Laws of parsing, formatting and merging comments (C31-C37). *)
From Verif Require Import Base Types BaseProofs StrProofs CommentModel CommentClaims CommentProofs.
From Coq Require Import Lia.
Local Open Scope nat_scope.

Definition parse_lines (c : comment) (ls : list str) : comment := foldl (λ c l, parse_line l c) c ls.
Lemma parse_lines_app c l1 l2 : parse_lines c (l1 ++ l2) = parse_lines (parse_lines c l1) l2.
Proof. apply foldl_app. Qed.

(** ** What parsing yields *)
Lemma parse_tags c ls t :
  t ∈ tags (parse_lines c ls) ↔ t ∈ tags c ∨ ∃ l, l ∈ ls ∧ value_tag_rx l = None ∧ flag_in t l.
Proof.
  revert c. induction ls as [|l ls IH]; intros c; simpl.
  { split; [by left|]. intros [?|(l & Hl & _)]; [done|by apply elem_of_nil in Hl]. }
  unfold parse_lines in *. rewrite IH. clear IH. destruct (value_tag_rx l) as [[k v]|] eqn:E.
  - rewrite (parse_line_value _ _ _ _ E). simpl. split.
    + intros [?|(l' & Hl & H)]; [by left|]. right. exists l'. split; [by right|done].
    + intros [?|(l' & [->|Hl]%elem_of_cons & H1 & H2)]; [by left|congruence|]. right. by exists l'.
  - destruct (parse_line_text l c E) as (parts & tail & H1 & H2 & H3 & H4 & ->). simpl.
    rewrite elem_of_union, elem_of_list_to_set, elem_of_part_flags, <- H4. split.
    + intros [[?|?]|(l' & Hl & H)]; [by left|right; exists l; split; [left|done]|].
      right. exists l'. split; [by right|done].
    + intros [?|(l' & [->|Hl]%elem_of_cons & H5 & H6)]; [by left; left|by left; right|]. right. by exists l'.
Qed.

Lemma keep_spec ts t : t ∈ keep ts ↔ t ≠ [] ∧ ∃ s, s ∈ ts ∧ t = trim s.
Proof. unfold keep. rewrite elem_of_list_filter, elem_of_list_fmap. naive_solver. Qed.

Lemma parse_line_shape l c : newline ∉ l → parsed_shape c → parsed_shape (parse_line l c).
Proof.
  intros Hl [H1 H2 H3 H4]. destruct (value_tag_rx l) as [[k v]|] eqn:E.
  - rewrite (parse_line_value _ _ _ _ E).
    destruct (value_tag_rx_Some _ _ _ E) as (Hk & sp & Hsp & Hv).
    assert (newline ∉ k ∧ newline ∉ default [] v) as [Hnk Hnv].
    { destruct Hv as [[-> ->]|(sp' & w & -> & -> & _ & _ & _ & Hw & _)]; rewrite !not_elem_of_app in Hl;
        destruct Hl as (_ & Hk' & _); split; [done| |done|done]. by intros ?%elem_of_nil. }
    split; simpl; [done|done|..]; intros k' v' [[-> <-]|[_ ?]]%lookup_insert_Some; eauto.
  - destruct (parse_line_text l c E) as (parts & tail & P1 & P2 & P3 & P4 & ->).
    assert (∀ p x, p ∈ parts → x ∈ part_text p → x ∈ l) as Hsub.
    { intros p x Hp Hx. rewrite P3. apply elem_of_app. left. apply elem_of_list_bind. eauto. }
    split; simpl; [| |done|done].
    + intros t [?|Ht%elem_of_list_to_set]%elem_of_union; [auto|].
      apply elem_of_part_flags in Ht as (p & Hp & Ht). rewrite Forall_forall in P1.
      destruct (P1 p Hp) as (_ & _ & Hrn). rewrite Forall_forall in Hrn. split; [auto|].
      intros Hn. apply Hl, (Hsub p); [done|]. unfold part_text. apply elem_of_app. right. right.
      unfold group. apply elem_of_list_bind. exists t. split; [|done]. apply elem_of_app. by left.
    + intros t [?|Ht]%elem_of_app; [auto|]. apply keep_spec in Ht as (Hne & s & Hs & ->).
      assert (no_flags s ∧ newline ∉ s) as [Hnf Hnl].
      { apply elem_of_app in Hs as [(p & -> & Hp)%elem_of_list_fmap|Hs].
        - rewrite Forall_forall in P1. destruct (P1 p Hp) as (Hnf & _ & _). split; [done|].
          intros Hn. apply Hl, (Hsub p); [done|]. unfold part_text. apply elem_of_app. by left.
        - apply elem_of_list_singleton in Hs as ->. split; [done|]. intros Hn. apply Hl. rewrite P3. apply elem_of_app. by right. }
      split_and!; [done|apply trim_trim| |].
      * intros Hn%trim_sub. done.
      * destruct (trim_split s) as (a & b & Es & _). rewrite Es in Hnf. by apply no_flags_sub in Hnf.
Qed.
Lemma parse_lines_shape ls c : (∀ l, l ∈ ls → newline ∉ l) → parsed_shape c → parsed_shape (parse_lines c ls).
Proof.
  revert c. induction ls as [|l ls IH]; intros c Hl Hc; [done|]. unfold parse_lines in *. simpl. apply IH.
  - intros l' ?. apply Hl. by right.
  - apply parse_line_shape; [|done]. apply Hl. left.
Qed.
Lemma comment_new_shape : parsed_shape comment_new.
Proof.
  split; simpl.
  - intros t Ht. set_solver.
  - intros l Hl. set_solver.
  - intros k v. rewrite lookup_empty. done.
  - intros k v. rewrite lookup_empty. done.
Qed.
Lemma from_opt_comment_shape s : parsed_shape (from_opt_comment s).
Proof.
  destruct s as [s|]; simpl; [|apply comment_new_shape].
  apply (parse_lines_shape (split_on NL s)); [|apply comment_new_shape]. intros l. apply split_on_elem.
Qed.

(** ** What formatting writes *)
Lemma group_join runs : runs ≠ [] → group runs = join [COLON] runs ++ [COLON].
Proof.
  induction runs as [|r runs IH]; [done|]. intros _. rewrite group_cons. destruct runs as [|r' runs]; [done|].
  rewrite IH, (join_cons COLON r), <- (assoc_L (++)) by done. done.
Qed.
Lemma stable_sort_str_perm l : stable_sort str_leb l ≡ₚ l.
Proof. apply stable_sort_perm. Qed.
Definition tag_runs (ho : hash_order) (ts : gset str) : list (list str) :=
  let all := ho_set ho ts in
  let short := filter (λ t, is_true (utf8_len t <=? MAX_INLINE_TAG_LEN)%N) all in
  let long := filter (λ t, is_true (negb (utf8_len t <=? MAX_INLINE_TAG_LEN)%N)) all in
  (match short with [] => [] | _ => [stable_sort str_leb short] end) ++ ((λ t, [t]) <$> stable_sort str_leb long).
Lemma format_tags_runs ho ts : format_tags ho ts = (λ r, COLON :: group r) <$> tag_runs ho ts.
Proof.
  unfold format_tags, tag_runs. rewrite fmap_app. f_equal.
  - set (short := filter _ _). generalize short as l. clear short. intros l. destruct l as [|x l]; [done|].
    rewrite fmap_cons. f_equal. rewrite group_join; [done|]. intros E.
    pose proof (stable_sort_str_perm (x :: l)) as Hp. rewrite E in Hp. by apply Permutation_nil_l in Hp.
  - rewrite <- list_fmap_compose. apply list_fmap_ext. intros _ t _. simpl. f_equal. unfold group. simpl.
    by rewrite app_nil_r.
Qed.
Lemma mjoin_singles {A} (l : list A) : mjoin ((λ t, [t]) <$> l) = l.
Proof. induction l as [|x l IH]; csimpl; [done|]. f_equal. apply IH. Qed.
Lemma mjoin_app {A} (a b : list (list A)) : mjoin (a ++ b) = mjoin a ++ mjoin b.
Proof. induction a as [|x a IH]; csimpl; [done|]. by rewrite IH, (assoc_L (++)). Qed.
Lemma filter_split_perm {A} (f : A → bool) (l : list A) :
  filter (λ t, is_true (f t)) l ++ filter (λ t, is_true (negb (f t))) l ≡ₚ l.
Proof.
  induction l as [|x l IH]; [done|]. destruct (f x) eqn:E.
  - rewrite filter_cons_True by (by rewrite E). rewrite filter_cons_False by (by rewrite E). simpl. by rewrite IH.
  - rewrite filter_cons_False by (by rewrite E). rewrite (filter_cons_True _ x) by (by rewrite E).
    rewrite <- Permutation_middle. by rewrite IH.
Qed.
Lemma tag_runs_perm ho ts : hash_order_ok ho → mjoin (tag_runs ho ts) ≡ₚ elements ts.
Proof.
  intros (Hs & _ & _). unfold tag_runs. rewrite mjoin_app, mjoin_singles.
  rewrite <- (Hs ts). etrans; [|apply (filter_split_perm (λ t, (utf8_len t <=? MAX_INLINE_TAG_LEN)%N))].
  apply Permutation_app; [|apply stable_sort_str_perm]. destruct (filter _ _) as [|x l] eqn:E; [done|].
  unfold mjoin, list_join. rewrite app_nil_r. apply stable_sort_str_perm.
Qed.
Lemma tag_runs_nonempty ho ts r : r ∈ tag_runs ho ts → r ≠ [].
Proof.
  unfold tag_runs. rewrite elem_of_app. intros [H|(t & -> & _)%elem_of_list_fmap]; [|done].
  destruct (filter _ _) as [|x l] eqn:E; [by apply elem_of_nil in H|].
  apply elem_of_list_singleton in H as ->. intros En.
  pose proof (stable_sort_str_perm (x :: l)) as Hp. rewrite En in Hp. by apply Permutation_nil_l in Hp.
Qed.
Lemma tag_runs_elem ho ts t : hash_order_ok ho → t ∈ ts ↔ ∃ r, r ∈ tag_runs ho ts ∧ t ∈ r.
Proof.
  intros Hho. rewrite <- elem_of_elements, <- (tag_runs_perm ho ts Hho). rewrite elem_of_list_join. naive_solver.
Qed.
Lemma tag_runs_nil ho ts : hash_order_ok ho → tag_runs ho ts = [] ↔ ts = ∅.
Proof.
  intros Hho. split.
  - intros E. apply set_eq. intros t. rewrite (tag_runs_elem ho ts t Hho), E. split; [|set_solver].
    intros (r & Hr & _). by apply elem_of_nil in Hr.
  - intros ->. pose proof (tag_runs_perm ho ∅ Hho) as Hp. rewrite elements_empty in Hp.
    destruct (tag_runs ho ∅) as [|r rs] eqn:E; [done|]. apply Permutation_nil_r in Hp. simpl in Hp.
    assert (r ≠ []) by (apply (tag_runs_nonempty ho ∅); rewrite E; left). by destruct r.
Qed.

Lemma split_join_all c l : l ≠ [] → split_on c (join [c] l) = l ≫= split_on c.
Proof.
  induction l as [|s l IH]; [done|]. intros _. destruct l as [|s' l].
  - simpl. by rewrite app_nil_r.
  - rewrite join_cons by done. rewrite bind_cons, <- IH by done. clear IH. generalize (join [c] (s' :: l)) as t.
    intros t. induction s as [|x s IH]; simpl; [by rewrite N.eqb_refl|]. destruct (x =? c)%N; [by rewrite IH|].
    rewrite IH. pose proof (split_on_nonempty c s). destruct (split_on c s) as [|p ps]; [done|]. done.
Qed.
Lemma parse_join out : from_opt_comment (match out with [] => None | _ => Some (join [NL] out) end)
  = parse_lines comment_new (out ≫= split_on NL).
Proof.
  destruct out as [|o out]; [done|]. unfold from_opt_comment. by rewrite split_join_all.
Qed.
Lemma bind_split_id l : Forall (λ s, NL ∉ s) l → l ≫= split_on NL = l.
Proof. induction 1 as [|s l Hs H IH]; csimpl; [done|]. rewrite split_on_no by done. simpl. by rewrite IH. Qed.
Lemma from_into ho c : from_opt_comment (into_opt_comment ho c) =
  parse_lines comment_new ((format_lines (format_tags ho (tags c)) (lines c) ++ format_values ho (value_tags c)) ≫= split_on NL).
Proof. apply parse_join. Qed.

(** ** Formatting does not depend on the iteration order of the tables *)
Lemma pair_leb_total a b : pair_leb a b = true ∨ pair_leb b a = true.
Proof.
  unfold pair_leb, str_eqb. destruct (decide (a.1 = b.1)) as [E|E].
  - rewrite E, !bool_decide_true by done. apply str_leb_total.
  - rewrite !bool_decide_false by done. apply str_leb_total.
Qed.
Lemma pair_leb_trans a b c : pair_leb a b = true → pair_leb b c = true → pair_leb a c = true.
Proof.
  unfold pair_leb, str_eqb. destruct a as [a1 a2], b as [b1 b2], c as [c1 c2]. simpl. intros H1 H2.
  destruct (decide (a1 = b1)) as [->|Hab].
  - rewrite bool_decide_true in H1 by done. destruct (decide (b1 = c1)) as [->|Hbc].
    + rewrite bool_decide_true in * by done. eauto using str_leb_trans.
    + rewrite bool_decide_false in * by done. done.
  - rewrite bool_decide_false in H1 by done. destruct (decide (b1 = c1)) as [->|Hbc].
    + rewrite bool_decide_false by done. done.
    + rewrite bool_decide_false in H2 by done. rewrite bool_decide_false; [eauto using str_leb_trans|].
      intros ->. destruct Hab. by apply str_leb_antisym.
Qed.
Lemma pair_leb_antisym a b : pair_leb a b = true → pair_leb b a = true → a = b.
Proof.
  unfold pair_leb, str_eqb. destruct a as [a1 a2], b as [b1 b2]. simpl. repeat case_bool_decide; intros H1 H2; subst; try done.
  - f_equal. by apply str_leb_antisym.
  - destruct H. by apply str_leb_antisym.
Qed.
Lemma sort_str_perm l1 l2 : l1 ≡ₚ l2 → stable_sort str_leb l1 = stable_sort str_leb l2.
Proof. apply stable_sort_perm_eq; [apply str_leb_total|apply str_leb_trans|apply str_leb_antisym]. Qed.
Lemma sort_pair_perm l1 l2 : l1 ≡ₚ l2 → stable_sort pair_leb l1 = stable_sort pair_leb l2.
Proof. apply stable_sort_perm_eq; [apply pair_leb_total|apply pair_leb_trans|apply pair_leb_antisym]. Qed.

Lemma format_tags_order ho ho' ts : hash_order_ok ho → hash_order_ok ho' → format_tags ho ts = format_tags ho' ts.
Proof.
  intros (H & _) (H' & _). unfold format_tags.
  assert (ho_set ho ts ≡ₚ ho_set ho' ts) as Hp by (by rewrite H, H'). f_equal.
  - set (short := filter _ _). set (short' := filter _ _).
    assert (short ≡ₚ short') as Hsp by (unfold short, short'; by rewrite Hp).
    rewrite (sort_str_perm _ _ Hsp). destruct short, short'; try done.
    + by apply Permutation_nil_l in Hsp.
    + by apply Permutation_nil_r in Hsp.
  - f_equal. apply sort_str_perm. by rewrite Hp.
Qed.
Lemma into_opt_comment_order ho ho' c : hash_order_ok ho → hash_order_ok ho' → into_opt_comment ho c = into_opt_comment ho' c.
Proof.
  intros H H'. unfold into_opt_comment. rewrite (format_tags_order ho ho') by done.
  assert (format_values ho (value_tags c) = format_values ho' (value_tags c)) as ->; [|done].
  unfold format_values. f_equal. apply sort_pair_perm. destruct H as (_ & _ & H), H' as (_ & _ & H').
  by rewrite H, H'.
Qed.

(** ** Round trip *)
Lemma parse_tag_lines rs c : Forall (λ r, r ≠ [] ∧ Forall tag_name r) rs →
  parse_lines c ((λ r, COLON :: group r) <$> rs) = Comment (lines c) (tags c ∪ list_to_set (mjoin rs)) (value_tags c).
Proof.
  intros H. revert c. induction H as [|r rs [Hne Hr] H IH]; intros c.
  - simpl. destruct c. f_equal. set_solver.
  - unfold parse_lines in *. csimpl. rewrite IH. pose proof (parse_line_tags r [] c Hne Hr (or_introl eq_refl)) as E.
    rewrite app_nil_r in E. rewrite E by (intros t (_ & a & b & E'); by destruct a). cbn [lines tags value_tags].
    change (keep [[]]) with (@nil str). rewrite app_nil_r. f_equal. rewrite list_to_set_app_L. set_solver.
Qed.
Lemma parse_text_lines ls c : Forall (λ l, l ≠ [] ∧ trim l = l ∧ no_flags l ∧ value_tag_rx l = None) ls →
  parse_lines c ls = Comment (lines c ++ ls) (tags c) (value_tags c).
Proof.
  intros H. revert c. induction H as [|l ls (H1 & H2 & H3 & H4) H IH]; intros c.
  - simpl. rewrite app_nil_r. by destruct c.
  - unfold parse_lines in *. simpl. rewrite IH, parse_line_plain by done. simpl. by rewrite <- (assoc_L (++)).
Qed.
Lemma parse_pair_lines (ps : list (str * str)) c :
  Forall (λ p, tag_name p.1 ∧ trim p.1 = p.1 ∧ p.2 ≠ [] ∧ trim p.2 = p.2 ∧ newline ∉ p.2) ps →
  parse_lines c ((λ '(k, v), trim k ++ [COLON; SPACE] ++ trim v) <$> ps) =
    Comment (lines c) (tags c) (foldl (λ m p, <[p.1 := p.2]> m) (value_tags c) ps).
Proof.
  intros H. revert c. induction H as [|[k v] ps (H1 & H2 & H3 & H4 & H5) H IH]; intros c.
  - simpl. by destruct c.
  - unfold parse_lines in *. rewrite fmap_cons. cbn [foldl fst snd] in *. rewrite H2, H4.
    rewrite IH, parse_line_pair by done. done.
Qed.
Lemma foldl_insert_map (ps : list (str * str)) (m : gmap str str) :
  NoDup (ps.*1) → foldl (λ m p, <[p.1 := p.2]> m) m ps = list_to_map ps ∪ m.
Proof.
  revert m. induction ps as [|[k v] ps IH]; intros m H; csimpl.
  - by rewrite (left_id_L ∅ (∪)).
  - inversion_clear H as [|? ? Hk H']. rewrite IH by done. rewrite <- insert_union_l.
    rewrite <- insert_union_r; [done|]. by apply not_elem_of_list_to_map_1.
Qed.
Lemma sorted_values_spec (ho : hash_order) (m : gmap str str) : hash_order_ok ho →
  let ps := stable_sort pair_leb (ho_strs ho str m) in
  (∀ p, p ∈ ps ↔ m !! p.1 = Some p.2) ∧ NoDup (ps.*1) ∧ list_to_map ps = m.
Proof.
  intros (_ & _ & H) ps.
  assert (ps ≡ₚ map_to_list m) as Hp by (unfold ps; by rewrite stable_sort_perm, H).
  assert (NoDup (ps.*1)) as Hnd by (rewrite Hp; apply NoDup_fst_map_to_list).
  split_and!.
  - intros [k v]. rewrite Hp. apply elem_of_map_to_list.
  - done.
  - rewrite <- (list_to_map_to_list m). by apply list_to_map_proper.
Qed.

Lemma roundtrip ho c : hash_order_ok ho → representable c → from_opt_comment (into_opt_comment ho c) = c.
Proof.
  intros Hho [R1 R2 R3 R4 R5]. rewrite from_into.
  assert (Forall (λ r, r ≠ [] ∧ Forall tag_name r) (tag_runs ho (tags c))) as Hruns.
  { apply Forall_forall. intros r Hr. split; [by eapply tag_runs_nonempty|]. apply Forall_forall. intros t Ht.
    apply R1. apply (tag_runs_elem ho); eauto. }
  assert (Forall (λ s, NL ∉ s) (format_tags ho (tags c))) as Hnt.
  { rewrite format_tags_runs. apply Forall_fmap, Forall_forall. intros r Hr. simpl. rewrite not_elem_of_cons. split; [done|].
    unfold group. intros (t & Hn & Ht)%elem_of_list_bind. apply elem_of_app in Hn as [Hn|Hn%elem_of_list_singleton]; [|done].
    destruct (R1 t) as [_ []]; [|done]. apply (tag_runs_elem ho); eauto. }
  assert (trim <$> lines c = lines c) as Htl.
  { rewrite <- (list_fmap_id (lines c)) at 2. apply list_fmap_ext. intros i l Hl%elem_of_list_lookup_2. by apply R2. }
  assert (Forall (λ s, NL ∉ s) (format_values ho (value_tags c)) ∧
    ∀ c', parse_lines c' (format_values ho (value_tags c)) = Comment (lines c') (tags c') (value_tags c ∪ value_tags c'))
    as [Hnv Hpv].
  { destruct (sorted_values_spec ho (value_tags c) Hho) as (S1 & S2 & S3).
    unfold format_values. split.
    - apply Forall_fmap, Forall_forall. intros [k v] Hkv%S1. simpl in *.
      destruct (R4 _ _ Hkv) as (_ & -> & Hk). destruct (R5 _ _ Hkv) as (_ & -> & Hv).
      rewrite not_elem_of_app, !not_elem_of_cons. done.
    - intros c'. rewrite parse_pair_lines.
      + rewrite foldl_insert_map by done. by rewrite S3.
      + apply Forall_forall. intros [k v] Hkv%S1. simpl in *.
        destruct (R4 _ _ Hkv) as (? & ? & Hk). destruct (R5 _ _ Hkv) as (? & ? & Hv). done. }
  assert (list_to_set (mjoin (tag_runs ho (tags c))) = tags c) as Hset.
  { apply set_eq. intros t. rewrite elem_of_list_to_set, (tag_runs_perm ho _ Hho). apply elem_of_elements. }
  assert (Forall (λ s, NL ∉ s) (format_lines (format_tags ho (tags c)) (lines c)) ∧
    parse_lines comment_new (format_lines (format_tags ho (tags c)) (lines c)) = Comment (lines c) (tags c) ∅) as [Hnl Hpl].
  { rewrite format_tags_runs in *. destruct (lines c) as [|l ls] eqn:El.
    - split; [by destruct (tag_runs ho (tags c))|].
      change (format_lines ?o []) with o.
      rewrite parse_tag_lines by done. rewrite Hset. simpl. f_equal. set_solver.
    - assert (Forall (λ s, NL ∉ s) (l :: ls)) as Hnls.
      { apply Forall_forall. intros s Hs. by apply R2. }
      destruct (tag_runs ho (tags c)) as [|r rs] eqn:Er.
      + apply tag_runs_nil in Er; [|done]. rewrite fmap_nil. change (format_lines [] (l :: ls)) with (trim <$> (l :: ls)). rewrite Htl. split; [done|].
        rewrite parse_text_lines; [by rewrite Er|]. apply Forall_forall. intros s Hs. destruct (R2 s Hs) as (?&?&?&?).
        split_and!; [done..|]. apply value_tag_rx_None; [done|]. intros k.
        apply elem_of_list_lookup in Hs as [i Hi]. eapply R3; [exact Hi|by right].
      + rewrite fmap_cons. cbn [format_lines]. csimpl in Htl. injection Htl as Htl Htls. rewrite Htl, Htls.
        inversion_clear Hruns as [|? ? [Hne Hr] Hrs]. inversion_clear Hnls as [|? ? Hl0 Hls0].
        rewrite fmap_cons in Hnt. inversion_clear Hnt as [|? ? Hnr Hnrs]. split.
        * constructor; [|by apply Forall_app_2]. simpl. rewrite not_elem_of_cons, not_elem_of_app, not_elem_of_cons.
          rewrite not_elem_of_cons in Hnr. naive_solver.
        * destruct (R2 l) as (L1 & L2 & L3 & L4); [left|].
          change (?x :: ?a ++ ?b) with ([x] ++ a ++ b). rewrite !parse_lines_app.
          assert (parse_lines comment_new [(COLON :: group r) ++ SPACE :: l] = Comment [l] (list_to_set r) ∅) as ->.
          { unfold parse_lines. cbn [foldl app]. rewrite parse_line_tags; [|done|done|eauto|].
            - unfold keep. cbn [fmap list_fmap]. rewrite trim_cons_ws, L2 by done.
              rewrite filter_cons_True by done. simpl. f_equal. set_solver.
            - intros t Ht%flag_in_cons; [|done]. by apply (L4 t). }
          rewrite parse_tag_lines by done. rewrite parse_text_lines.
          -- cbn [lines tags value_tags app]. f_equal. rewrite <- Hset. csimpl. by rewrite list_to_set_app_L.
          -- apply Forall_forall. intros s Hs. destruct (R2 s) as (?&?&?&?); [by right|].
             split_and!; [done..|]. apply value_tag_rx_None; [done|]. intros k.
             apply elem_of_list_lookup in Hs as [i Hi]. apply (R3 (S i) s k); [done|by left]. }
  rewrite bind_split_id by (by apply Forall_app_2). rewrite parse_lines_app, Hpl, Hpv. cbn [lines tags value_tags].
  rewrite (right_id_L ∅ (∪)). by destruct c.
Qed.

(** ** Tags survive *)
Lemma group_split t r : t ∈ r → ∃ a b, COLON :: group r = a ++ COLON :: t ++ COLON :: b.
Proof.
  intros (x & y & ->)%elem_of_list_split.
  assert (∃ a, COLON :: group x = a ++ [COLON]) as (a & Ea).
  { destruct x as [|x0 x]; [by exists []|]. rewrite group_join by done. by exists (COLON :: join [COLON] (x0 :: x)). }
  exists a, (group y). unfold group in *. rewrite bind_app, app_comm_cons.
  assert (COLON :: (x ≫= λ r, r ++ [COLON]) = a ++ [COLON]) as -> by done.
  csimpl. rewrite <- !(assoc_L (++)). done.
Qed.
Lemma format_lines_prefix out ls o : o ∈ out → ∃ x, o ++ x ∈ format_lines out ls.
Proof.
  intros Ho. destruct ls as [|l ls].
  - exists []. rewrite app_nil_r. by destruct out.
  - destruct out as [|o' out]; [by apply elem_of_nil in Ho|]. simpl. apply elem_of_cons in Ho as [->|Ho].
    + eexists. left.
    + exists []. rewrite app_nil_r. right. apply elem_of_app. by left.
Qed.
Lemma split_on_prefix c o x : c ∉ o → ∃ p, o ++ p ∈ split_on c (o ++ x).
Proof.
  intros Ho. pose proof (split_on_nonempty c x). induction o as [|y o IH]; simpl.
  - destruct (split_on c x) as [|p ps]; [done|]. exists p. left.
  - apply not_elem_of_cons in Ho as [Hy Ho]. destruct (N.eqb_spec y c) as [->|_]; [done|].
    clear IH. assert (∃ p ps, split_on c (o ++ x) = (o ++ p) :: ps) as (p & ps & ->).
    { clear Hy y. induction o as [|z o IH]; simpl.
      - destruct (split_on c x) as [|p ps]; [done|]. by exists p, ps.
      - apply not_elem_of_cons in Ho as [Hz Ho]. destruct (N.eqb_spec z c) as [->|_]; [done|].
        destruct (IH Ho) as (p & ps & ->). by exists p, ps. }
    exists p. left.
Qed.
Lemma tags_survive ho c t : hash_order_ok ho → (∀ u, u ∈ tags c → newline ∉ u) → t ∈ tags c → tag_name t →
  t ∈ tags (from_opt_comment (into_opt_comment ho c)).
Proof.
  intros Hho Hnl Ht Hn. rewrite from_into, parse_tags. right.
  pose proof Ht as (r & Hr & Htr)%(tag_runs_elem ho (tags c) t Hho).
  destruct (format_lines_prefix (format_tags ho (tags c)) (lines c) (COLON :: group r)) as (x & Hx).
  { rewrite format_tags_runs. apply elem_of_list_fmap. by exists r. }
  destruct (split_on_prefix NL (COLON :: group r) x) as (p & Hp).
  { rewrite not_elem_of_cons. split; [done|]. unfold group. intros (u & Hu & Hur)%elem_of_list_bind.
    apply elem_of_app in Hu as [Hu|Hu%elem_of_list_singleton]; [|done].
    apply (Hnl u); [|done]. apply (tag_runs_elem ho); eauto. }
  eexists. split.
  { rewrite bind_app. apply elem_of_app. left. apply elem_of_list_bind. eexists. split; [exact Hp|exact Hx]. }
  split; [done|]. apply flag_in_app_r. split; [done|]. by apply group_split.
Qed.

(** ** Values survive *)
Lemma parse_line_blank_value k c : tag_name k → value_tags (parse_line (k ++ [COLON; SPACE]) c) = value_tags c.
Proof.
  intros Hk. assert (value_tag_rx (k ++ [COLON; SPACE]) = None) as E.
  { destruct (value_tag_rx (k ++ [COLON; SPACE])) as [[k' v]|] eqn:E; [|done].
    apply value_tag_rx_Some in E as (Hk' & sp & Hsp & H).
    assert (sp = []) as ->.
    { destruct sp as [|s sp]; [done|]. assert (s = SPACE) as -> by (apply Hsp; left).
      destruct k as [|k0 k]; [by destruct Hk|]. destruct Hk as [_ Hc].
      assert (k0 = SPACE) as -> by (destruct H as [[_ H]|(?&?&_&H&_)]; by simplify_eq/=).
      destruct (Hc SPACE) as [_ []]; [left|done]. }
    destruct H as [[_ H]|(sp' & w & _ & H & H1 & H2 & H3 & _)]; apply name_prefix_inj in H as [_ H]; try done.
    destruct sp' as [|s sp']; [done|]. destruct sp' as [|s' sp']; [by destruct w|done]. }
  by destruct (parse_line_text _ c E) as (parts & tail & _ & _ & _ & _ & ->).
Qed.
Definition good_pair (p : str * str) : Prop := tag_name p.1 ∧ trim p.1 = p.1 ∧ newline ∉ p.1 ∧ newline ∉ p.2.
Lemma parse_good_pair k v c : good_pair (k, v) →
  value_tags (parse_line (trim k ++ [COLON; SPACE] ++ trim v) c) =
    if decide (trim v = []) then value_tags c else <[k := trim v]> (value_tags c).
Proof.
  intros (H1 & H2 & H3 & H4). simpl in *. rewrite H2. case_decide as E.
  - rewrite E. by apply parse_line_blank_value.
  - change (k ++ COLON :: SPACE :: trim v) with (k ++ [COLON; SPACE] ++ trim v). rewrite parse_line_pair; [done|done|done|apply trim_trim|].
    intros Hx%trim_sub. done.
Qed.
Lemma parse_good_pairs ps c k v : Forall good_pair ps → NoDup (ps.*1) → (k, v) ∈ ps → trim v ≠ [] →
  value_tags (parse_lines c ((λ '(k, v), trim k ++ [COLON; SPACE] ++ trim v) <$> ps)) !! k = Some (trim v).
Proof.
  assert (∀ ps c, Forall good_pair ps → k ∉ ps.*1 →
    value_tags (parse_lines c ((λ '(k, v), trim k ++ [COLON; SPACE] ++ trim v) <$> ps)) !! k = value_tags c !! k) as Hno.
  { intros qs. induction qs as [|[k' v'] qs IH]; intros c' H Hk; [done|]. inversion_clear H. csimpl in Hk.
    apply not_elem_of_cons in Hk as [Hk1 Hk2]. unfold parse_lines in *. rewrite fmap_cons. cbn [foldl].
    rewrite IH by done. rewrite parse_good_pair by done. case_decide; [done|]. by rewrite lookup_insert_ne. }
  revert c. induction ps as [|[k' v'] ps IH]; intros c H Hnd Hin Hv; [by apply elem_of_nil in Hin|].
  inversion_clear H. csimpl in Hnd. inversion_clear Hnd as [|? ? Hk Hnd']. unfold parse_lines in *. rewrite fmap_cons. cbn [foldl].
  apply elem_of_cons in Hin as [[= <- <-]|Hin].
  - rewrite Hno by done. rewrite parse_good_pair by done. rewrite decide_False by done. by rewrite lookup_insert.
  - by apply IH.
Qed.
Lemma values_survive ho c k v : hash_order_ok ho →
  (∀ k v, value_tags c !! k = Some v → tag_name k ∧ trim k = k ∧ newline ∉ k ∧ newline ∉ v) →
  value_tags c !! k = Some v → trim v ≠ [] →
  value_tags (from_opt_comment (into_opt_comment ho c)) !! k = Some (trim v).
Proof.
  intros Hho Hg Hk Hv. rewrite from_into, bind_app, parse_lines_app.
  destruct (sorted_values_spec ho (value_tags c) Hho) as (S1 & S2 & S3).
  assert (Forall good_pair (stable_sort pair_leb (ho_strs ho str (value_tags c)))) as Hgp.
  { apply Forall_forall. intros [k' v'] H%S1. by apply Hg. }
  rewrite (bind_split_id (format_values ho (value_tags c))).
  - unfold format_values. apply parse_good_pairs; [done|done| |done]. by apply S1.
  - unfold format_values. apply Forall_fmap. eapply Forall_impl; [exact Hgp|].
    intros [k' v'] (H1 & H2 & H3 & H4). simpl in *. rewrite H2, not_elem_of_app, !not_elem_of_cons.
    split_and!; [done|done|done|]. intros Hx%trim_sub. done.
Qed.

(** ** Formatting what was parsed *)
Definition trim_values (c : comment) : comment := Comment (lines c) (tags c) (trim <$> value_tags c).
Lemma stable_sort_fmap {A B} (leb : A → A → bool) (leb' : B → B → bool) (f : A → B) l :
  (∀ a b, a ∈ l → b ∈ l → leb' (f a) (f b) = leb a b) → stable_sort leb' (f <$> l) = f <$> stable_sort leb l.
Proof.
  intros H. induction l as [|x l IH]; [done|]. csimpl. rewrite IH.
  2:{ intros a b Ha Hb. apply H; by right. }
  assert (∀ k, (∀ y, y ∈ k → y ∈ l) → sort_insert leb' (f x) (f <$> k) = f <$> sort_insert leb x k) as Hi.
  { induction k as [|y k IHk]; intros Hk; [done|]. csimpl. rewrite H; [|left|right; apply Hk; left].
    destruct (leb x y); [done|]. csimpl. rewrite IHk; [done|]. intros z Hz. apply Hk. by right. }
  apply Hi. intros y. by rewrite stable_sort_perm.
Qed.
Lemma into_trim_values ho c : hash_order_ok ho → into_opt_comment ho (trim_values c) = into_opt_comment ho c.
Proof.
  intros Hho. unfold into_opt_comment, trim_values. cbn [lines tags value_tags].
  assert (format_values ho (trim <$> value_tags c) = format_values ho (value_tags c)) as ->; [|done].
  unfold format_values. destruct Hho as (_ & _ & H).
  assert (ho_strs ho str (trim <$> value_tags c) ≡ₚ prod_map id trim <$> ho_strs ho str (value_tags c)) as Hp.
  { rewrite !H. by rewrite map_to_list_fmap. }
  rewrite (sort_pair_perm _ _ Hp). rewrite (stable_sort_fmap pair_leb).
  - rewrite <- list_fmap_compose. apply list_fmap_ext. intros i [k v] _. simpl. by rewrite trim_trim.
  - intros [k v] [k' v']. rewrite !H, !elem_of_map_to_list. intros H1 H2. unfold pair_leb. simpl.
    unfold str_eqb. case_bool_decide; [|done]. subst. simplify_eq. by rewrite !str_leb_refl.
Qed.
Lemma format_parse_fixed ho c : hash_order_ok ho → parsed_shape c →
  (∀ k v, value_tags c !! k = Some v → trim v ≠ [] ∧ trim k = k) →
  (∀ i l k, lines c !! i = Some l → i ≠ 0 ∨ tags c = ∅ → ¬ value_line k l) →
  into_opt_comment ho (from_opt_comment (into_opt_comment ho c)) = into_opt_comment ho c.
Proof.
  intros Hho [P1 P2 P3 P4] Hv Hl. rewrite <- (into_trim_values ho c Hho). rewrite roundtrip; [done|done|].
  assert (∀ k v, value_tags (trim_values c) !! k = Some v → ∃ w, value_tags c !! k = Some w ∧ v = trim w) as Hw.
  { intros k v. unfold trim_values. cbn [value_tags]. rewrite lookup_fmap, fmap_Some. done. }
  split; try done.
  - intros k v (w & Hk & ->)%Hw. destruct (P3 _ _ Hk). by destruct (Hv _ _ Hk).
  - intros k v (w & Hk & ->)%Hw. destruct (Hv _ _ Hk). pose proof (P4 _ _ Hk). split_and!; [done|apply trim_trim|].
    intros Hx%trim_sub. done.
Qed.

(** ** Merging comments *)
Lemma existsb_str l ls : existsb (λ x, str_eqb x l) ls = bool_decide (l ∈ ls).
Proof.
  apply eq_true_iff_eq. rewrite existsb_exists, bool_decide_eq_true. unfold str_eqb. split.
  - intros (x & Hx & ->%bool_decide_eq_true). by apply elem_of_list_In.
  - intros H. exists l. split; [by apply elem_of_list_In|]. by apply bool_decide_eq_true.
Qed.
Lemma merge_lines_cons s l o : merge_lines s (l :: o) = merge_lines (if decide (l ∈ s) then s else s ++ [l]) o.
Proof. unfold merge_lines. simpl. rewrite existsb_str. repeat case_decide; try case_bool_decide; done. Qed.
Lemma merge_lines_spec s o : ∃ x, merge_lines s o = s ++ x ∧ NoDup x ∧ x `sublist_of` o ∧
  (∀ l, l ∈ x ↔ l ∈ o ∧ l ∉ s).
Proof.
  revert s. induction o as [|l o IH]; intros s.
  - exists []. rewrite app_nil_r. split_and!; [done|constructor|done|]. intros l. set_solver.
  - rewrite merge_lines_cons. case_decide as Hl.
    + destruct (IH s) as (x & -> & H1 & H2 & H3). exists x. split_and!; [done|done|by apply sublist_cons|].
      intros l'. rewrite H3. set_solver.
    + destruct (IH (s ++ [l])) as (x & -> & H1 & H2 & H3). exists (l :: x). rewrite <- (assoc_L (++)).
      split_and!; [done| |by apply sublist_skip|].
      * constructor; [|done]. rewrite H3. set_solver.
      * intros l'. rewrite !elem_of_cons, H3, not_elem_of_app, elem_of_list_singleton.
        destruct (decide (l' = l)) as [->|]; tauto.
Qed.
Lemma merge_lines_elem s o l : l ∈ merge_lines s o ↔ l ∈ s ∨ l ∈ o.
Proof.
  destruct (merge_lines_spec s o) as (x & -> & _ & _ & H). rewrite elem_of_app, H. destruct (decide (l ∈ s)); naive_solver.
Qed.
Lemma merge_lines_absorb s o : (∀ l, l ∈ o → l ∈ s) → merge_lines s o = s.
Proof.
  revert s. induction o as [|l o IH]; intros s H; [done|]. rewrite merge_lines_cons, decide_True by (apply H; left).
  apply IH. intros l' ?. apply H. by right.
Qed.
Lemma merge_lines_app s o o' : merge_lines s (o ++ o') = merge_lines (merge_lines s o) o'.
Proof. apply foldl_app. Qed.
Lemma merge_lines_assoc a b c : merge_lines (merge_lines a b) c = merge_lines a (merge_lines b c).
Proof.
  revert b. induction c as [|l c IH]; intros b; [done|]. rewrite !merge_lines_cons. rewrite <- IH. f_equal.
  destruct (decide (l ∈ b)) as [Hb|Hb].
  - rewrite decide_True; [done|]. apply merge_lines_elem. by right.
  - rewrite merge_lines_app. rewrite merge_lines_cons. case_decide; done.
Qed.
Lemma merge_from_idem a b : merge_from (merge_from a b) b = merge_from a b.
Proof.
  unfold merge_from. cbn [lines tags value_tags]. f_equal.
  - apply merge_lines_absorb. intros l ?. apply merge_lines_elem. by right.
  - set_solver.
  - rewrite (assoc_L (∪)). by rewrite (idemp_L (∪)).
Qed.
Lemma merge_from_self a : merge_from a a = a.
Proof.
  unfold merge_from. rewrite merge_lines_absorb by done. rewrite (idemp_L (∪)), (idemp_L (∪)). by destruct a.
Qed.
Lemma merge_from_assoc a b c : merge_from (merge_from a b) c = merge_from a (merge_from b c).
Proof.
  unfold merge_from. cbn [lines tags value_tags]. f_equal.
  - apply merge_lines_assoc.
  - by rewrite (assoc_L (∪)).
  - by rewrite (assoc_L (∪)).
Qed.
Lemma merge_from_empty a : NoDup (lines a) → merge_from comment_new a = a.
Proof.
  intros H. unfold merge_from. simpl. rewrite (right_id_L ∅ (∪)), (left_id_L ∅ (∪)).
  assert (∀ s o, NoDup (s ++ o) → merge_lines s o = s ++ o) as ->.
  { intros s o. revert s. induction o as [|l o IH]; intros s Hn; [by rewrite app_nil_r|].
    rewrite merge_lines_cons. rewrite decide_False.
    - rewrite IH; rewrite <- (assoc_L (++)); done.
    - apply NoDup_app in Hn as (_ & Hn & _). intros Hl. apply (Hn l Hl). left. }
  - by destruct a.
  - done.
Qed.

(** ** Exactly what is found in a text *)
Lemma parse_value_keys c ls k : (∀ l, l ∈ ls → newline ∉ l) →
  is_Some (value_tags (parse_lines c ls) !! k) ↔ is_Some (value_tags c !! k) ∨ ∃ l, l ∈ ls ∧ value_line k l.
Proof.
  revert c. induction ls as [|l ls IH]; intros c Hnl; simpl.
  { split; [by left|]. intros [?|(l & Hl & _)]; [done|by apply elem_of_nil in Hl]. }
  unfold parse_lines in *. rewrite IH by (intros l' ?; apply Hnl; by right). clear IH.
  assert (newline ∉ l) as Hl by (apply Hnl; left).
  destruct (value_tag_rx l) as [[k' v]|] eqn:E.
  - rewrite (parse_line_value _ _ _ _ E). cbn [value_tags]. rewrite lookup_insert_is_Some. split.
    + intros [[->|[_ ?]]|(l' & Hin & ?)]; [right; exists l; split; [left|by eapply value_tag_rx_line]|by left|].
      right. exists l'. split; [by right|done].
    + intros [?|(l' & [->|Hin]%elem_of_cons & Hv)].
      * left. destruct (decide (k' = k)); auto.
      * left. left. destruct (value_line_rx l k Hl Hv) as [w Hw]. congruence.
      * right. by exists l'.
  - destruct (parse_line_text l c E) as (parts & tail & _ & _ & _ & _ & ->). cbn [value_tags]. split.
    + intros [?|(l' & Hin & ?)]; [by left|]. right. exists l'. split; [by right|done].
    + intros [?|(l' & [->|Hin]%elem_of_cons & Hv)]; [by left| |right; by exists l'].
      destruct (value_line_rx l k Hl Hv) as [w Hw]. congruence.
Qed.
Lemma flags_exact s t : t ∈ tags (from_opt_comment (Some s)) ↔
  ∃ l, l ∈ split_on newline s ∧ (∀ k, ¬ value_line k l) ∧ flag_in t l.
Proof.
  simpl. etrans; [apply (parse_tags comment_new (split_on NL s) t)|]. split.
  - intros [H|(l & Hl & H1 & H2)]; [set_solver|]. exists l. split; [done|]. split; [|done].
    apply value_tag_rx_None; [|done]. by eapply split_on_elem.
  - intros (l & Hl & H1 & H2). right. exists l. split; [done|]. split; [|done].
    apply value_tag_rx_None; [|done]. by eapply split_on_elem.
Qed.
Lemma keys_exact s k : is_Some (value_tags (from_opt_comment (Some s)) !! k) ↔
  ∃ l, l ∈ split_on newline s ∧ value_line k l.
Proof.
  simpl. etrans; [apply (parse_value_keys comment_new (split_on NL s) k); intros l; apply split_on_elem|].
  split; [|by right]. intros [[v H]|?]; [|done]. simpl in H. by rewrite lookup_empty in H.
Qed.
Lemma value_text_rx k l v : newline ∉ l → value_text k l v ↔ ∃ w, value_tag_rx l = Some (k, w) ∧ default [] w = v.
Proof.
  intros Hnl. split.
  - intros (Hk & sp & sp' & Hsp & Hsp' & H).
    assert (value_line k l) as Hl.
    { split; [done|]. destruct H as [[-> ->]|(-> & Hne & Hv)].
      - exists sp, []. eauto.
      - exists sp, (sp' ++ v). split_and!; [done|done|]. right. exists sp', v. split_and!; [done..|].
        by destruct Hv as [->|(c & w & -> & _)]. }
    destruct (value_line_rx l k Hnl Hl) as [w Hw]. exists w. split; [done|].
    apply value_tag_rx_Some in Hw as (_ & tp & Htp & Hw).
    assert (∀ x y sp tp, spaces sp → spaces tp → sp ++ k ++ x = tp ++ k ++ y → x = y) as Hpre.
    { clear -Hk. intros x y sp tp Hs Ht E.
      assert (∀ sp z, spaces sp → drop_while (λ c, (c =? SPACE)%N) (sp ++ k ++ z) = k ++ z) as Hd.
      { clear -Hk. intros sp z Hs. rewrite drop_while_app by (apply Forall_forall; intros c Hc; by apply N.eqb_eq, Hs).
        destruct Hk as [Hne Hc]. destruct k as [|c k]; [done|]. simpl.
        destruct (N.eqb_spec c SPACE) as [->|]; [|done]. destruct (Hc SPACE) as [_ []]; [left|done]. }
      pose proof (Hd sp x Hs) as E1. rewrite E, Hd in E1 by done. by apply app_inv_head in E1. }
    assert (∀ sp tp v w, spaces sp → spaces tp → sp ≠ [] → tp ≠ [] → sp ++ v = tp ++ w →
      (v = [space] ∨ ∃ c x, v = c :: x ∧ c ≠ space) → (w = [space] ∨ ∃ c x, w = c :: x ∧ c ≠ space) → v = w) as Hval.
    { clear. intros sp tp v w Hs Ht Hs0 Ht0 E Hv Hw.
      assert (∀ sp v, spaces sp → (v = [space] ∨ ∃ c x, v = c :: x ∧ c ≠ space) →
        drop_while (λ c, (c =? SPACE)%N) (sp ++ v) = if decide (v = [space]) then [] else v) as Hd.
      { clear. intros sp v Hs Hv. rewrite drop_while_app by (apply Forall_forall; intros c Hc; by apply N.eqb_eq, Hs).
        destruct Hv as [->|(c & x & -> & Hc)]; [by rewrite decide_True|].
        rewrite decide_False by (intros [= -> ->]; done). simpl. destruct (N.eqb_spec c SPACE) as [->|]; done. }
      pose proof (Hd sp v Hs Hv) as E1. rewrite E, Hd in E1 by done.
      destruct Hv as [->|(c & x & -> & Hc)], Hw as [->|(c' & x' & -> & Hc')]; repeat case_decide; simplify_eq; done. }
    destruct H as [[-> ->]|(-> & Hne & Hv)], Hw as [[-> Ew]|(sp2 & w2 & -> & Ew & H1 & H2 & H3 & H4 & H5)];
      apply Hpre in Ew; try done.
    + by destruct sp2.
    + by destruct sp'.
    + injection Ew as Ew. simpl. symmetry. by eapply (Hval sp' sp2).
  - intros (w & E & <-). apply value_tag_rx_Some in E as (Hk & sp & Hsp & H). split; [done|].
    destruct H as [[-> ->]|(sp' & v & -> & -> & H1 & H2 & H3 & H4 & H5)].
    + exists sp, []. split_and!; [done| |by left]. by intros ? ?%elem_of_nil.
    + exists sp, sp'. split_and!; [done|done|]. right. done.
Qed.
Lemma parse_values c ls k v : (∀ l, l ∈ ls → newline ∉ l) →
  value_tags (parse_lines c ls) !! k = Some v ↔
    (value_tags c !! k = Some v ∧ ∀ l, l ∈ ls → ¬ value_line k l) ∨
    ∃ a l b, ls = a ++ l :: b ∧ value_text k l v ∧ ∀ l', l' ∈ b → ¬ value_line k l'.
Proof.
  revert c. induction ls as [|l ls IH]; intros c Hnl.
  { simpl. split.
    - intros H. left. split; [done|]. by intros l ?%elem_of_nil.
    - intros [[? _]|(a & l & b & E & _)]; [done|by destruct a]. }
  assert (newline ∉ l) as Hl by (apply Hnl; left).
  unfold parse_lines in *. cbn [foldl]. rewrite IH by (intros l' ?; apply Hnl; by right). clear IH.
  assert ((∃ a l0 b, l :: ls = a ++ l0 :: b ∧ value_text k l0 v ∧ ∀ l', l' ∈ b → ¬ value_line k l') ↔
    (∃ a l0 b, ls = a ++ l0 :: b ∧ value_text k l0 v ∧ ∀ l', l' ∈ b → ¬ value_line k l') ∨
    (value_text k l v ∧ ∀ l', l' ∈ ls → ¬ value_line k l')) as ->.
  { split.
    - intros ([|x a] & l0 & b & E & H1 & H2); simplify_eq/=; [by right|left; by exists a, l0, b].
    - intros [(a & l0 & b & -> & H1 & H2)|[H1 H2]]; [by exists (l :: a), l0, b|by exists [], l, ls]. }
  destruct (value_tag_rx l) as [[k' w]|] eqn:E.
  - rewrite (parse_line_value _ _ _ _ E). cbn [value_tags].
    assert (value_line k' l) as Hvl by (by eapply value_tag_rx_line).
    destruct (decide (k' = k)) as [->|Hne].
    + rewrite lookup_insert. split.
      * intros [[[= <-] H]|?]; [|right; by left]. right. right. split; [|done]. apply value_text_rx; [done|]. eauto.
      * intros [[_ H]|[?|[H1 H2]]]; [by destruct (H l ltac:(left))|by right|].
        apply value_text_rx in H1 as (w' & E' & <-); [|done]. left. simplify_eq. done.
    + rewrite lookup_insert_ne by done.
      assert (¬ value_text k l v) as Hnt.
      { intros H. apply value_text_rx in H as (w' & E' & _); [congruence|done]. }
      assert (¬ value_line k l) as Hnv.
      { intros H. apply value_line_rx in H as (w' & E'); [congruence|done]. }
      split.
      * intros [[H1 H2]|?]; [left|right; by left]. split; [done|]. intros l' [->|?]%elem_of_cons; auto.
      * intros [[H1 H2]|[?|[? _]]]; [left|by right|done]. split; [done|]. intros l' ?. apply H2. by right.
  - destruct (parse_line_text l c E) as (parts & tail & _ & _ & _ & _ & ->). cbn [value_tags].
    assert (¬ value_text k l v) as Hnt.
    { intros H. apply value_text_rx in H as (w' & E' & _); [congruence|done]. }
    assert (¬ value_line k l) as Hnv.
    { intros H. apply value_line_rx in H as (w' & E'); [congruence|done]. }
    split.
    + intros [[H1 H2]|?]; [left|right; by left]. split; [done|]. intros l' [->|?]%elem_of_cons; auto.
    + intros [[H1 H2]|[?|[? _]]]; [left|by right|done]. split; [done|]. intros l' ?. apply H2. by right.
Qed.
Lemma values_exact s k v : value_tags (from_opt_comment (Some s)) !! k = Some v ↔
  ∃ a l b, split_on newline s = a ++ l :: b ∧ value_text k l v ∧ ∀ l', l' ∈ b → ¬ value_line k l'.
Proof.
  simpl. etrans; [apply (parse_values comment_new (split_on NL s) k v); intros l; apply split_on_elem|].
  split; [|by right]. intros [[H _]|?]; [|done]. simpl in H. by rewrite lookup_empty in H.
Qed.

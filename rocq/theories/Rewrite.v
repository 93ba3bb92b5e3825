(** Writing and reading a comment again and again (C119). *)
From Verif Require Import MergeClaims.
From Verif Require Import Base Types SpecBase BaseProofs StrProofs CommentModel CommentClaims CommentTextClaims CommentProofs CommentLaws CommentText CommentTags
  RereadClaims Reread RewriteClaims.
From Coq Require Import Lia.
Local Open Scope nat_scope.

(** ** What one line gives *)
Definition conv (l : str) : option (str * str) := match value_tag_rx l with Some (k, v) => Some (k, default [] v) | None => None end.
Definition puts (ps : list (str * str)) (m : gmap str str) : gmap str str := foldl (λ m p, <[p.1 := p.2]> m) m ps.
Definition texts_of (ls : list str) : list str := filter (λ l, conv l = None) ls.
Definition clean (l : str) : Prop := l ≠ [] ∧ trim l = l ∧ newline ∉ l ∧ no_flags l.
Lemma parse_clean_lines ls c : Forall clean ls →
  parse_lines c ls = Comment (lines c ++ texts_of ls) (tags c) (puts (omap conv ls) (value_tags c)).
Proof.
  intros H. revert c. induction H as [|l ls (H1 & H2 & H3 & H4) H IH]; intros c.
  - unfold parse_lines, texts_of. simpl. rewrite app_nil_r. by destruct c.
  - change (parse_lines c (l :: ls)) with (parse_lines (parse_line l c) ls). rewrite IH. unfold texts_of, conv. csimpl.
    destruct (value_tag_rx l) as [[k v]|] eqn:E.
    + rewrite (parse_line_value _ c k v E). cbn [lines tags value_tags]. rewrite filter_cons_False by (by rewrite E). done.
    + rewrite parse_line_plain by done. cbn [lines tags value_tags]. rewrite filter_cons_True by (by rewrite E). by rewrite <- (assoc_L (++)).
Qed.
Definition written_pair (p : str * str) : option (str * str) := if decide (trim p.2 = []) then None else Some (trim p.1, trim p.2).
Definition written_blank (p : str * str) : option str := if decide (trim p.2 = []) then Some (trim p.1 ++ [COLON]) else None.
Lemma value_tag_rx_blank k : tag_name k → value_tag_rx (k ++ [COLON; SPACE]) = None.
Proof.
  intros Hk. destruct (value_tag_rx (k ++ [COLON; SPACE])) as [[k' v]|] eqn:E; [|done].
  apply value_tag_rx_Some in E as (Hk' & sp & Hsp & H).
  assert (sp = []) as ->.
  { destruct sp as [|s sp]; [done|]. assert (s = SPACE) as -> by (apply Hsp; left).
    destruct k as [|k0 k]; [by destruct Hk|]. destruct Hk as [_ Hc].
    assert (k0 = SPACE) as -> by (destruct H as [[_ H]|(?&?&_&H&_)]; by simplify_eq/=).
    destruct (Hc SPACE) as [_ []]; [left|done]. }
  destruct H as [[_ H]|(sp' & w & _ & H & H1 & H2 & H3 & _)]; apply name_prefix_inj in H as [_ H]; try done.
  destruct sp' as [|s sp']; [done|]. destruct sp' as [|s' sp']; [by destruct w|done].
Qed.
Lemma trim_app_ws s c : is_ws c = true → trim (s ++ [c]) = trim s.
Proof.
  intros Hc. unfold trim. induction s as [|x s IH]; simpl.
  - by rewrite Hc.
  - destruct (is_ws x) eqn:E; [done|]. rewrite app_comm_cons. unfold drop_while_end. rewrite reverse_app. simpl. by rewrite Hc.
Qed.
Lemma trim_key_colon k : trim k ≠ [] → trim (trim k ++ [COLON]) = trim k ++ [COLON].
Proof.
  intros Hk. apply trim_bare. destruct (trim_is_bare k) as [?|(Hb1 & Hb2 & Hb3)]; [done|]. split_and!.
  - by destruct (trim k).
  - intros x y E. destruct (trim k) as [|a b]; [done|]. injection E as <- _. by eapply Hb2.
  - intros x y E. apply app_inj_2 in E as [_ E]; [|done]. by injection E as <-.
Qed.
Lemma trim_name k : tag_name k → trim k ≠ [] → tag_name (trim k).
Proof. intros [_ Hk] Hn. split; [done|]. intros x Hx%trim_sub. by apply Hk. Qed.
Lemma parse_value_lines (ps : list (str * str)) c : Forall (λ p, tag_name p.1 ∧ trim p.1 ≠ [] ∧ newline ∉ p.1 ∧ newline ∉ p.2) ps →
  parse_lines c ((λ '(k, v), trim k ++ [COLON; SPACE] ++ trim v) <$> ps) =
    Comment (lines c ++ omap written_blank ps) (tags c) (puts (omap written_pair ps) (value_tags c)).
Proof.
  intros H. revert c. induction H as [|[k v] ps (H1 & H2 & H3 & H4) H IH]; intros c.
  - unfold parse_lines. simpl. rewrite app_nil_r. by destruct c.
  - rewrite fmap_cons. cbn [fst snd] in *.
    change (parse_lines c (?l :: ?ls)) with (parse_lines (parse_line l c) ls). rewrite IH. clear IH. csimpl. unfold written_pair at 2, written_blank at 2. cbn [fst snd].
    pose proof (trim_name k H1 H2) as Hn. destruct (decide (trim v = [])) as [Ev|Ev].
    + rewrite Ev. pose proof (value_tag_rx_blank _ Hn) as Hrx.
      assert (no_flags (trim k ++ [COLON; SPACE])) as Hf.
      { intros t Ht. destruct (pair_line_flags k [] t) as [Hp _]; [done|done|by intros ?%elem_of_nil|].
        change ([COLON; SPACE] ++ trim []) with [COLON; SPACE] in Hp. by destruct (Hp (conj Hrx Ht)). }
      assert (parse_line (trim k ++ [COLON; SPACE]) c = Comment (lines c ++ [trim k ++ [COLON]]) (tags c) (value_tags c)) as ->.
      { unfold parse_line. rewrite Hrx, flag_scan_none by done. simpl. rewrite push_text_keep. unfold keep. cbn [fmap list_fmap].
        change [COLON; SPACE] with ([COLON] ++ [SPACE]). rewrite app_assoc, trim_app_ws, trim_key_colon by done.
        rewrite filter_cons_True; [done|]. by destruct (trim k). }
      cbn [lines tags value_tags]. by rewrite <- (assoc_L (++)).
    + change (trim k ++ COLON :: SPACE :: trim v) with (trim k ++ [COLON; SPACE] ++ trim v). rewrite parse_line_pair; [done|done|done|apply trim_trim|]. intros Hx%trim_sub. done.
Qed.
(** ** What is read from a comment that was written *)
Definition firsts (c : comment) : list str := if decide (tags c = ∅) then [] else take 1 (lines c).
Definition rest (c : comment) : list str := if decide (tags c = ∅) then lines c else drop 1 (lines c).
Lemma firsts_rest c : firsts c ++ rest c = lines c.
Proof. unfold firsts, rest. case_decide; [done|]. apply take_drop. Qed.
Definition vals (m : gmap str str) : list (str * str) := stable_sort pair_leb (map_to_list m).
Definition step (c : comment) : comment :=
  Comment (firsts c ++ texts_of (rest c) ++ omap written_blank (vals (value_tags c))) (tags c)
    (puts (omap written_pair (vals (value_tags c))) (puts (omap conv (rest c)) ∅)).
Lemma vals_spec (m : gmap str str) : (∀ p, p ∈ vals m ↔ m !! p.1 = Some p.2) ∧ NoDup ((vals m).*1).
Proof.
  assert (vals m ≡ₚ map_to_list m) as Hp by (unfold vals; by rewrite stable_sort_perm). split.
  - intros [k v]. rewrite Hp. apply elem_of_map_to_list.
  - rewrite Hp. apply NoDup_fst_map_to_list.
Qed.
Lemma reread_step ho c : hash_order_ok ho → ordinary c → from_opt_comment (into_opt_comment ho c) = step c.
Proof.
  intros Hho [Hs Hk]. rewrite from_text_lines, (formatted_lines ho c Hho Hs), parse_lines_app.
  assert (format_values ho (value_tags c) = (λ '(k, v), trim k ++ [COLON; SPACE] ++ trim v) <$> vals (value_tags c)) as ->.
  { unfold format_values, vals. f_equal. apply sort_pair_perm. by destruct Hho as (_ & _ & ->). }
  rewrite parse_value_lines.
  2:{ apply Forall_forall. intros [k v] Hkv%vals_spec. cbn [fst snd] in *. destruct (ps_keys c Hs k v Hkv). split_and!; [done|by eapply Hk|done|by eapply (ps_values c Hs k v)]. }
  assert (Forall clean (lines c)) as Hcl by (apply Forall_forall; intros l Hl; by apply (ps_lines c Hs)).
  assert (trim <$> lines c = lines c) as Htl.
  { rewrite <- (list_fmap_id (lines c)) at 2. apply list_fmap_ext. intros i l Hl%elem_of_list_lookup_2. by apply (ps_lines c Hs). }
  assert (Forall (λ r, r ≠ [] ∧ Forall tag_name r) (tag_runs ho (tags c))) as Hruns.
  { apply Forall_forall. intros r Hr. split; [by eapply tag_runs_nonempty|]. apply Forall_forall. intros t Ht.
    apply (ps_tags c Hs). apply (tag_runs_elem ho); eauto. }
  assert (list_to_set (mjoin (tag_runs ho (tags c))) = tags c) as Hset.
  { apply set_eq. intros t. rewrite elem_of_list_to_set, (tag_runs_perm ho _ Hho). apply elem_of_elements. }
  assert (parse_lines comment_new (format_lines (format_tags ho (tags c)) (lines c)) =
    Comment (firsts c ++ texts_of (rest c)) (tags c) (puts (omap conv (rest c)) ∅)) as ->.
  { rewrite format_tags_runs. unfold firsts, rest. destruct (tag_runs ho (tags c)) as [|r rs] eqn:Er.
    - apply tag_runs_nil in Er; [|done]. rewrite !decide_True by done. rewrite fmap_nil.
      match goal with |- context [format_lines ?o (lines c)] => assert (format_lines o (lines c) = lines c) as -> by (rewrite <- Htl at 2; by destruct (lines c)) end.
      rewrite parse_clean_lines by done. rewrite Er. done.
    - assert (tags c ≠ ∅) as Hne by (intros E; apply (tag_runs_nil ho) in E; [congruence|done]). rewrite !decide_False by done. clear Hne.
      destruct (lines c) as [|l ls] eqn:El.
      + change (format_lines ?o []) with o. rewrite parse_tag_lines by done. rewrite Hset. change (tags comment_new) with (∅ : gset str). by rewrite (left_id_L ∅ (∪)).
      + rewrite fmap_cons. cbn [format_lines]. csimpl in Htl. injection Htl as Htl Htls. rewrite Htl, Htls.
        inversion_clear Hruns as [|? ? [Hne Hr] Hrs]. rewrite Forall_cons in Hcl. destruct Hcl as [(L1 & L2 & L3 & L4) Hls].
        change (?x :: ?a ++ ?b) with ([x] ++ a ++ b). rewrite !parse_lines_app.
        assert (parse_lines comment_new [(COLON :: group r) ++ SPACE :: l] = Comment [l] (list_to_set r) ∅) as ->.
        { unfold parse_lines. cbn [foldl app]. rewrite parse_line_tags; [|done|done|eauto|].
          - unfold keep. cbn [fmap list_fmap]. rewrite trim_cons_ws, L2 by done.
            rewrite filter_cons_True by done. simpl. f_equal. set_solver.
          - intros t Ht%flag_in_cons; [|done]. by apply (L4 t). }
        rewrite parse_tag_lines by done. rewrite parse_clean_lines by done.
        cbn [lines tags value_tags take drop app]. f_equal. rewrite <- Hset. csimpl. by rewrite list_to_set_app_L. }
  unfold step. cbn [lines tags value_tags]. by rewrite <- (assoc_L (++)).
Qed.

(** ** Keys *)
Lemma line_key_nonblank l k : (∀ x y, l = x :: y → is_ws x = false) → value_line k l → trim k ≠ [].
Proof.
  intros Hl (Hk & sp & tail & Hsp & -> & _). destruct sp as [|s sp].
  - destruct k as [|x k]; [by destruct Hk|]. cbn in Hl. specialize (Hl _ _ eq_refl). rewrite trim_nil_iff. intros H. inversion_clear H. congruence.
  - assert (s = SPACE) as -> by (apply Hsp; left). by specialize (Hl _ _ eq_refl).
Qed.
Lemma head_trim s x y : trim s = x :: y → is_ws x = false.
Proof. intros E. destruct (trim_is_bare s) as [?|(_ & H & _)]; [congruence|by eapply H]. Qed.
Lemma written_ordinary ho c : hash_order_ok ho → parsed_shape c → ordinary (from_opt_comment (into_opt_comment ho c)).
Proof.
  intros Hho Hs. pose proof (formatted_lines ho c Hho Hs) as Hl. destruct (into_opt_comment ho c) as [s|].
  2:{ split; [apply from_opt_comment_shape|]. intros k v. cbn. by rewrite lookup_empty. }
  apply read_ordinary. intros l k Hin. change (l ∈ text_lines (Some s)) in Hin. rewrite Hl in Hin. apply line_key_nonblank.
  apply elem_of_app in Hin as [Hin|Hin].
  - rewrite format_tags_runs in Hin. assert (∀ z o, o ∈ ((λ r, COLON :: group r) <$> tag_runs ho (tags c)) → ∀ x y, o ++ z = x :: y → is_ws x = false) as Ho.
    { intros z o (r & -> & _)%elem_of_list_fmap x y [= <- _]. done. }
    unfold format_lines in Hin. destruct (lines c) as [|y ls]; [|destruct ((λ r, COLON :: group r) <$> tag_runs ho (tags c)) as [|o out]].
    + intros x z E. apply (Ho [] l Hin x z). by rewrite app_nil_r.
    + apply elem_of_list_fmap in Hin as (w & -> & _). intros x z. apply head_trim.
    + apply elem_of_cons in Hin as [->|[Hin|(w & -> & _)%elem_of_list_fmap]%elem_of_app].
      * apply Ho. left.
      * intros x z E. apply (Ho [] l (elem_of_list_further _ _ _ Hin) x z). by rewrite app_nil_r.
      * intros x z. apply head_trim.
  - unfold format_values in Hin. apply elem_of_list_fmap in Hin as ([k' v] & -> & _). intros x z. destruct (trim k') as [|a b] eqn:E.
    + by intros [= <- _].
    + intros [= <- _]. by apply head_trim in E.
Qed.
Lemma step_ordinary c : ordinary c → ordinary (step c).
Proof.
  intros H. rewrite <- (reread_step default_order c default_order_ok H). apply written_ordinary; [exact default_order_ok|apply H].
Qed.
Lemma conv_key l k v : conv l = Some (k, v) → tag_name k.
Proof.
  unfold conv. destruct (value_tag_rx l) as [[k' v']|] eqn:E; [|done]. intros [= <- <-]. apply value_tag_rx_Some in E. apply E.
Qed.
Lemma conv_colon k : tag_name k → conv (k ++ [COLON]) = Some (k, []).
Proof.
  intros Hk. unfold conv, value_tag_rx.
  assert (drop_while (λ c, (c =? SPACE)%N) (k ++ [COLON]) = k ++ [COLON]) as ->.
  { destruct Hk as [Hne Hc]. destruct k as [|c k]; [done|]. simpl.
    destruct (N.eqb_spec c SPACE) as [->|]; [|done]. destruct (Hc SPACE) as [_ []]; [left|done]. }
  destruct (name_prefix k [] Hk) as [-> ->]. by destruct k as [|c k]; [destruct Hk|].
Qed.

(** ** A comment whose keys are without white space around them *)
Definition plain (c : comment) : Prop := ordinary c ∧ (∀ k v, value_tags c !! k = Some v → trim k = k) ∧ (∀ l k v, l ∈ rest c → conv l = Some (k, v) → trim k = k).
Lemma puts_in ps m k v : puts ps m !! k = Some v → m !! k = Some v ∨ (k, v) ∈ ps.
Proof.
  revert m. induction ps as [|[k' v'] ps IH]; intros m; [by left|]. cbn. intros [H|H]%IH; [|by right; right].
  destruct (decide (k = k')) as [->|Hk]; [rewrite lookup_insert in H; injection H as ->; right; left|rewrite lookup_insert_ne in H by done; by left].
Qed.
Definition blank_lines (m : gmap str str) : list str := omap written_blank (vals m).
(** The lines that may become value tags. *)
Lemma rest_step c : rest (step c) =
  if decide (tags c = ∅ ∨ lines c ≠ []) then texts_of (rest c) ++ blank_lines (value_tags c) else drop 1 (blank_lines (value_tags c)).
Proof.
  unfold rest at 1, step, firsts. cbn [tags lines]. unfold rest. case_decide as Ht.
  - rewrite decide_True by (by left). done.
  - destruct (lines c) as [|l ls].
    + rewrite decide_False by (intros [?|?]; done). done.
    + rewrite decide_True by (by right). done.
Qed.
Lemma firsts_step c : firsts (step c) = if decide (tags c = ∅ ∨ lines c ≠ []) then firsts c else take 1 (blank_lines (value_tags c)).
Proof.
  unfold firsts at 1, step, firsts. cbn [tags lines]. unfold rest. case_decide as Ht.
  - rewrite decide_True by (by left). done.
  - destruct (lines c) as [|l ls].
    + rewrite decide_False by (intros [?|?]; done). done.
    + rewrite decide_True by (by right). done.
Qed.
Lemma blank_lines_elem m l : l ∈ blank_lines m → ∃ k v, m !! k = Some v ∧ trim v = [] ∧ l = trim k ++ [COLON].
Proof.
  unfold blank_lines. rewrite elem_of_list_omap. intros ([k v] & Hp%vals_spec & E). unfold written_blank in E. cbn [fst snd] in *. case_decide; [|done].
  injection E as <-. by exists k, v.
Qed.
Lemma step_rest_keys c l k v : ordinary c → l ∈ rest (step c) → conv l = Some (k, v) → trim k = k.
Proof.
  intros [Hs Hk] Hl Hc. assert (l ∈ texts_of (rest c) ∨ l ∈ blank_lines (value_tags c)) as [H|H].
  { rewrite rest_step in Hl. case_decide; [by apply elem_of_app in Hl|]. right. rewrite <- (take_drop 1 (blank_lines _)). apply elem_of_app. by right. }
  - unfold texts_of in H. apply elem_of_list_filter in H as [H _]. congruence.
  - apply blank_lines_elem in H as (k' & v' & Hk' & _ & ->). rewrite conv_colon in Hc; [injection Hc as <- <-; apply trim_trim|].
    apply trim_name; [by apply (ps_keys c Hs _ _ Hk')|by eapply Hk].
Qed.
Lemma step_keys c k v : (∀ l k v, l ∈ rest c → conv l = Some (k, v) → trim k = k) → value_tags (step c) !! k = Some v → trim k = k.
Proof.
  intros Hr H. unfold step in H. cbn [value_tags] in H. apply puts_in in H as [H|H].
  - apply puts_in in H as [H|H]; [by rewrite lookup_empty in H|]. apply elem_of_list_omap in H as (l & Hl & Hc). by eapply Hr.
  - apply elem_of_list_omap in H as ([k' v'] & _ & E). unfold written_pair in E. case_decide; [done|]. injection E as <- _. apply trim_trim.
Qed.
Lemma plain_step c : plain c → plain (step c).
Proof.
  intros (H1 & H2 & H3). split; [by apply step_ordinary|]. split; [intros k v; by apply step_keys|]. intros l k v. by apply step_rest_keys.
Qed.
Lemma plain_two c : ordinary c → plain (step (step c)).
Proof.
  intros H. split; [by apply step_ordinary, step_ordinary|]. split.
  - intros k v. apply step_keys. intros l k' v'. by apply step_rest_keys.
  - intros l k v. apply step_rest_keys. by apply step_ordinary.
Qed.

(** ** Values that are kept and values that become text *)
Definition kept (m : gmap str str) : gmap str str := omap (λ v, if decide (trim v = []) then None else Some (trim v)) m.
Definition blanks (m : gmap str str) : list str := omap (λ p, if decide (trim p.2 = []) then Some p.1 else None) (vals m).
Definition colons (ks : list str) : list str := (λ k, k ++ [COLON]) <$> ks.
Definition empties (ks : list str) : gmap str str := puts ((λ k, (k, [])) <$> ks) ∅.
Lemma kept_lookup m k : kept m !! k = match m !! k with Some v => if decide (trim v = []) then None else Some (trim v) | None => None end.
Proof. unfold kept. rewrite lookup_omap. by destruct (m !! k). Qed.
Lemma empties_lookup ks k : empties ks !! k = if decide (k ∈ ks) then Some [] else None.
Proof.
  unfold empties. assert (∀ m : gmap str str, puts ((λ k, (k, [])) <$> ks) m !! k = if decide (k ∈ ks) then Some [] else m !! k) as H.
  { induction ks as [|k' ks IH]; intros m.
    - destruct (decide (k ∈ [])) as [Hk|Hk]; [by apply elem_of_nil in Hk|done].
    - rewrite fmap_cons. change (puts ((k', []) :: ?ps) m) with (puts ps (<[k' := []]> m)). rewrite IH. destruct (decide (k ∈ ks)) as [Hk|Hk]; [by rewrite decide_True by (by right)|].
      destruct (decide (k = k')) as [->|Hne]; [rewrite lookup_insert; by rewrite decide_True by left|].
      rewrite lookup_insert_ne by done. rewrite decide_False; [done|]. by intros [?|?]%elem_of_cons. }
  rewrite H. by rewrite lookup_empty.
Qed.
Lemma blanks_elem m k : k ∈ blanks m ↔ ∃ v, m !! k = Some v ∧ trim v = [].
Proof.
  unfold blanks. rewrite elem_of_list_omap. split.
  - intros ([k' v] & Hp%vals_spec & E). cbn [fst snd] in *. case_decide; [|done]. injection E as <-. by exists v.
  - intros (v & Hv & Ht). exists (k, v). split; [by apply vals_spec|]. cbn. by rewrite decide_True.
Qed.
Lemma blank_lines_plain (m : gmap str str) : (∀ k v, m !! k = Some v → trim k = k) → blank_lines m = colons (blanks m).
Proof.
  intros H. unfold blank_lines, blanks, colons.
  assert (Forall (λ p, trim p.1 = p.1) (vals m)) as Hf.
  { apply Forall_forall. intros [k v] Hp%vals_spec. by eapply H. }
  induction Hf as [|[k v] ps Hp Hf IH]; [done|]. csimpl in *. rewrite IH. unfold written_blank. cbn [fst snd]. case_decide; csimpl; [by rewrite Hp|done].
Qed.
Lemma puts_plain (m x : gmap str str) : (∀ k v, m !! k = Some v → trim k = k) → puts (omap written_pair (vals m)) x = kept m ∪ x.
Proof.
  intros H. destruct (vals_spec m) as [Hv Hnd].
  assert (Forall (λ p, trim p.1 = p.1) (vals m)) as Hf.
  { apply Forall_forall. intros [k v] Hp%vals_spec. by eapply H. }
  assert (∀ ps : list (str * str), Forall (λ p, trim p.1 = p.1) ps → ∀ k, k ∈ (omap written_pair ps).*1 → k ∈ ps.*1) as Hsub.
  { intros ps Hps k (p & -> & (q & Hq & E)%elem_of_list_omap)%elem_of_list_fmap. unfold written_pair in E. case_decide; [done|]. injection E as <-. cbn.
    rewrite Forall_forall in Hps. rewrite (Hps _ Hq). by apply elem_of_list_fmap_1. }
  assert (NoDup ((omap written_pair (vals m)).*1)) as Hnd'.
  { clear Hv H. induction Hf as [|p ps Hp Hf IH]; [constructor|]. csimpl in *. inversion_clear Hnd as [|? ? Hk Hnd0].
    unfold written_pair at 1. case_decide; csimpl; [by apply IH|]. constructor; [|by apply IH]. rewrite Hp. intros Hin. by apply Hk, Hsub. }
  unfold puts. rewrite foldl_insert_map by done. f_equal. apply map_eq. intros k. apply option_eq. intros v.
  rewrite <- elem_of_list_to_map by done. rewrite kept_lookup, elem_of_list_omap. split.
  - intros ([k' v'] & Hp%Hv & E). unfold written_pair in E. cbn [fst snd] in *. case_decide as Ed; [done|]. injection E as <- <-.
    rewrite (H _ _ Hp), Hp. by rewrite decide_False.
  - destruct (m !! k) as [w|] eqn:E; [|done]. case_decide as Ed; [done|]. intros [= <-]. exists (k, w). split; [by apply Hv|].
    unfold written_pair. cbn [fst snd]. rewrite decide_False by done. by rewrite (H _ _ E).
Qed.
Lemma kept_again m ks : kept (kept m ∪ empties ks) = kept m.
Proof.
  apply map_eq. intros k. rewrite kept_lookup, lookup_union, empties_lookup, kept_lookup.
  destruct (m !! k) as [v|]; [destruct (decide (trim v = [])) as [E|E]|]; destruct (decide (k ∈ ks)); cbn; try done; rewrite ?trim_trim; by rewrite ?decide_False.
Qed.
Lemma kept_blanks m : kept m ∪ empties (blanks m) = trim <$> m.
Proof.
  apply map_eq. intros k. rewrite lookup_union, empties_lookup, kept_lookup, lookup_fmap.
  destruct (m !! k) as [v|] eqn:Em; [destruct (decide (trim v = [])) as [E|E]|].
  - rewrite decide_True by (apply blanks_elem; by exists v). cbn. by rewrite E.
  - rewrite decide_False; [done|]. intros (w & Hw & Hb)%blanks_elem. congruence.
  - rewrite decide_False; [done|]. intros (w & Hw & Hb)%blanks_elem. congruence.
Qed.
Lemma empties_again m ks : kept m ∪ empties (blanks (kept m ∪ empties ks)) = kept m ∪ empties ks.
Proof.
  apply map_eq. intros k. rewrite !lookup_union, !empties_lookup. destruct (kept m !! k) as [v|] eqn:E.
  - assert (trim v ≠ []) as Hv.
    { rewrite kept_lookup in E. destruct (m !! k); [|done]. case_decide; [done|]. injection E as <-. by rewrite trim_trim. }
    rewrite (decide_False (P := k ∈ blanks _)).
    + by destruct (decide (k ∈ ks)).
    + intros (w & Hw & Hb)%blanks_elem. rewrite lookup_union, E in Hw. destruct (empties ks !! k); cbn in Hw; congruence.
  - destruct (decide (k ∈ ks)) as [Hk|Hk].
    + rewrite decide_True; [done|]. apply blanks_elem. exists []. split; [|done]. by rewrite lookup_union, E, empties_lookup, decide_True.
    + rewrite decide_False; [done|]. intros (w & Hw & Hb)%blanks_elem. by rewrite lookup_union, E, empties_lookup, decide_False in Hw.
Qed.
Lemma blanks_trim m : blanks (trim <$> m) = blanks m.
Proof.
  unfold blanks, vals. rewrite (sort_pair_perm _ _ (map_to_list_fmap trim m)). rewrite (stable_sort_fmap pair_leb).
  - generalize (stable_sort pair_leb (map_to_list m)) as ps. induction ps as [|[k v] ps IH]; [done|]. csimpl. rewrite IH. by rewrite trim_trim.
  - intros [k v] [k' v']. rewrite !elem_of_map_to_list. intros H1 H2. unfold pair_leb. simpl.
    unfold str_eqb. case_bool_decide; [|done]. subst. simplify_eq. by rewrite !str_leb_refl.
Qed.
Lemma kept_trim m : kept (trim <$> m) = kept m.
Proof. apply map_eq. intros k. rewrite !kept_lookup, lookup_fmap. destruct (m !! k); [|done]. cbn. by rewrite trim_trim. Qed.

(** ** The cycle *)
Definition form (t : gset str) (f n ks : list str) (m : gmap str str) (c : comment) : Prop :=
  tags c = t ∧ firsts c = f ∧ rest c = n ++ colons ks ∧ value_tags c = m ∧ Forall (λ l, conv l = None) n ∧ Forall tag_name ks.
Definition settled (c : comment) : Prop := tags c = ∅ ∨ lines c ≠ [].
Lemma form_eq t f n ks m c c' : form t f n ks m c → form t f n ks m c' → c = c'.
Proof.
  intros (H1 & H2 & H3 & H4 & _) (H1' & H2' & H3' & H4' & _). destruct c as [l tg v], c' as [l' tg' v']. cbn [tags value_tags] in *.
  pose proof (firsts_rest (Comment l tg v)) as E. pose proof (firsts_rest (Comment l' tg' v')) as E'. cbn [lines] in *. congruence.
Qed.
Lemma texts_colons n ks : Forall (λ l, conv l = None) n → Forall tag_name ks →
  texts_of (n ++ colons ks) = n ∧ puts (omap conv (n ++ colons ks)) ∅ = empties ks.
Proof.
  intros Hn Hk. assert (texts_of (n ++ colons ks) = n ∧ omap conv (n ++ colons ks) = (λ k, (k, [])) <$> ks) as [H1 H2].
  { induction Hn as [|l n Hl Hn [IH1 IH2]].
    - induction Hk as [|k ks Hk Hks [IH1 IH2]]; [done|]. unfold colons, texts_of in *. rewrite fmap_cons. cbn [app] in *. 
      rewrite filter_cons_False by (by rewrite conv_colon). csimpl. rewrite conv_colon by done. split; [done|]. by rewrite <- IH2.
    - unfold texts_of in *. cbn [app]. rewrite filter_cons_True by done. split; [by rewrite IH1|]. csimpl. by rewrite Hl. }
  split; [done|]. unfold empties. by rewrite H2.
Qed.
Lemma blanks_names c : ordinary c → Forall tag_name (blanks (value_tags c)).
Proof. intros [Hs _]. apply Forall_forall. intros k (v & Hv & _)%blanks_elem. by apply (ps_keys c Hs _ _ Hv). Qed.
Lemma texts_of_texts ls : Forall (λ l, conv l = None) (texts_of ls).
Proof. apply Forall_forall. intros l Hl. by apply elem_of_list_filter in Hl as [? _]. Qed.
Lemma step_settled c : settled c → settled (step c).
Proof.
  intros [H|H]; [by left|]. destruct (decide (tags c = ∅)) as [Ht|Ht]; [by left|]. right. unfold step, firsts. cbn [lines].
  rewrite decide_False by done. by destruct (lines c).
Qed.
Lemma first_step c : plain c → settled c →
  form (tags c) (firsts c) (texts_of (rest c)) (blanks (value_tags c)) (kept (value_tags c) ∪ puts (omap conv (rest c)) ∅) (step c).
Proof.
  intros (H1 & H2 & H3) Hs. split_and!.
  - done.
  - rewrite firsts_step. by rewrite decide_True.
  - rewrite rest_step. rewrite decide_True by done. by rewrite blank_lines_plain.
  - unfold step. cbn [value_tags]. by rewrite puts_plain.
  - apply texts_of_texts.
  - by apply blanks_names.
Qed.
Lemma form_step t f n ks m c : plain c → settled c → form t f n ks m c → form t f n (blanks m) (kept m ∪ empties ks) (step c).
Proof.
  intros Hp Hs (E1 & E2 & E3 & E4 & Hn & Hk). pose proof (first_step c Hp Hs) as H. rewrite E1, E2, E3, E4 in H.
  destruct (texts_colons n ks Hn Hk) as [-> Ee] in H. by rewrite Ee in H.
Qed.
Lemma cycle_settled c : plain c → settled c → step (step (step (step c))) = step (step c).
Proof.
  intros Hp Hs. pose proof (first_step c Hp Hs) as F1. revert F1. generalize (kept (value_tags c) ∪ puts (omap conv (rest c)) ∅) as m1.
  generalize (tags c) (firsts c) (texts_of (rest c)) (blanks (value_tags c)). intros t f n ks m1 F1.
  pose proof (plain_step _ Hp) as P1. pose proof (step_settled _ Hs) as S1.
  pose proof (plain_step _ P1) as P2. pose proof (step_settled _ S1) as S2.
  pose proof (plain_step _ P2) as P3. pose proof (step_settled _ S2) as S3.
  pose proof (form_step _ _ _ _ _ _ P1 S1 F1) as F2.
  pose proof (form_step _ _ _ _ _ _ P2 S2 F2) as F3. rewrite kept_again, kept_blanks in F3.
  pose proof (form_step _ _ _ _ _ _ P3 S3 F3) as F4. rewrite kept_trim, blanks_trim, empties_again in F4.
  exact (form_eq _ _ _ _ _ _ _ F4 F2).
Qed.
Lemma cycle c : plain c → step (step (step (step c))) = step (step c).
Proof.
  intros Hp. destruct (decide (tags c = ∅)) as [Ht|Ht]; [apply cycle_settled; [done|by left]|].
  destruct (decide (lines c = [])) as [Hl|Hl]; [|apply cycle_settled; [done|by right]].
  assert (¬ settled c) as Hns by (intros [?|?]; done).
  pose proof (plain_step _ Hp) as P1. destruct (Hp) as (O1 & O2 & O3).
  assert (rest c = []) as Hr by (unfold rest; rewrite decide_False, Hl by done; done).
  assert (value_tags (step c) = kept (value_tags c)) as Hv.
  { unfold step. cbn [value_tags]. rewrite puts_plain by done. rewrite Hr. cbn. apply (right_id_L ∅ (∪)). }
  assert (blanks (value_tags (step c)) = []) as Hb.
  { apply elem_of_nil_inv. intros k (v & E & Ev)%blanks_elem. rewrite Hv, kept_lookup in E. destruct (value_tags c !! k); [|done].
    case_decide; [done|]. injection E as <-. by rewrite trim_trim in Ev. }
  assert (kept (value_tags (step c)) = kept (value_tags c)) as Hk.
  { rewrite Hv. apply map_eq. intros k. rewrite !kept_lookup. destruct (value_tags c !! k) as [v|]; [|done]. case_decide as E; [done|]. rewrite trim_trim. by rewrite decide_False. }
  assert (lines (step c) = blank_lines (value_tags c)) as Hls.
  { unfold step. cbn [lines]. unfold firsts. rewrite decide_False, Hl, Hr by done. done. }
  destruct (decide (lines (step c) = [])) as [Hl1|Hl1].
  - (* no blank values: settled at once *)
    assert (step (step c) = step c) as E.
    { unfold step at 1. destruct (step c) as [l1 t1 v1] eqn:Es. unfold firsts, rest. cbn [lines tags value_tags] in *. subst l1.
      assert (t1 = tags c) as -> by (apply (f_equal tags) in Es; by cbn in Es). rewrite !decide_False by done. rewrite ?Hl1. unfold texts_of. cbn [take drop app].
      change (filter (λ l : str, conv l = None) []) with (@nil str). cbn [app].
      assert (∀ k v, v1 !! k = Some v → trim k = k) as Hv1.
      { intros k v H. destruct P1 as (_ & P & _). by apply (P k v). }
      pose proof (blank_lines_plain v1 Hv1) as Hbl. unfold blank_lines in Hbl. rewrite Hbl, Hb. rewrite puts_plain by done. rewrite Hk, <- Hv.
      cbn. by rewrite (right_id_L ∅ (∪)). }
    by rewrite !E.
  - assert (settled (step c)) as S1 by (by right).
    assert (form (tags c) (take 1 (blank_lines (value_tags c))) [] (drop 1 (blanks (value_tags c))) (kept (value_tags c)) (step c)) as F1.
    { split_and!; [done| | |done|constructor|].
      - rewrite firsts_step. by rewrite decide_False.
      - rewrite rest_step. rewrite decide_False by done. rewrite blank_lines_plain by done. unfold colons. by rewrite fmap_drop.
      - apply Forall_drop. by apply blanks_names. }
    pose proof (plain_step _ P1) as P2. pose proof (step_settled _ S1) as S2.
    pose proof (plain_step _ P2) as P3. pose proof (step_settled _ S2) as S3.
    rewrite <- Hv in F1. pose proof (form_step _ _ _ _ _ _ P1 S1 F1) as F2.
    pose proof (form_step _ _ _ _ _ _ P2 S2 F2) as F3. rewrite kept_again, kept_blanks in F3.
    pose proof (form_step _ _ _ _ _ _ P3 S3 F3) as F4. rewrite kept_trim, blanks_trim, empties_again in F4.
    exact (form_eq _ _ _ _ _ _ _ F4 F2).
Qed.

(** The third comment read is already in the cycle, whatever the keys. *)
Lemma cycle_form t f n ks m c : plain c → settled c → form t f n ks m c → step (step (step c)) = step c.
Proof.
  intros P1 S1 F1.
  pose proof (plain_step _ P1) as P2. pose proof (step_settled _ S1) as S2.
  pose proof (plain_step _ P2) as P3. pose proof (step_settled _ S2) as S3.
  pose proof (form_step _ _ _ _ _ _ P1 S1 F1) as F2.
  pose proof (form_step _ _ _ _ _ _ P2 S2 F2) as F3. rewrite kept_again, kept_blanks in F3.
  pose proof (form_step _ _ _ _ _ _ P3 S3 F3) as F4. rewrite kept_trim, blanks_trim, empties_again in F4.
  exact (form_eq _ _ _ _ _ _ _ F4 F2).
Qed.
Lemma blank_lines_colons m : blank_lines m = colons (omap (λ p, if decide (trim p.2 = []) then Some (trim p.1) else None) (vals m)).
Proof.
  unfold blank_lines, colons. generalize (vals m) as ps. induction ps as [|[k v] ps IH]; [done|]. csimpl. rewrite IH. unfold written_blank. cbn [fst snd].
  by case_decide.
Qed.
Lemma cycle_three c : ordinary c → plain (step c) → step (step (step (step c))) = step (step c).
Proof.
  intros Ho Hp. destruct (decide (settled (step c))) as [Hs|Hs].
  - set (ks := omap (λ p, if decide (trim p.2 = []) then Some (trim p.1) else None) (vals (value_tags c))).
    assert (Forall tag_name ks) as Hks.
    { apply Forall_forall. intros k ([k' v] & Hk%vals_spec & E)%elem_of_list_omap. cbn [fst snd] in *. case_decide; [|done]. injection E as <-.
      destruct Ho as [Hsh Hne]. apply trim_name; [by apply (ps_keys c Hsh _ _ Hk)|by eapply Hne]. }
    assert (∃ n ks', rest (step c) = n ++ colons ks' ∧ Forall (λ l, conv l = None) n ∧ Forall tag_name ks') as (n & ks' & H1 & H2 & H3).
    { rewrite rest_step. rewrite blank_lines_colons. fold ks. case_decide.
      - exists (texts_of (rest c)), ks. split; [done|]. split; [apply texts_of_texts|done].
      - exists [], (drop 1 ks). split; [unfold colons; by rewrite fmap_drop|]. split; [constructor|by apply Forall_drop]. }
    apply (cycle_form (tags (step c)) (firsts (step c)) n ks' (value_tags (step c))); [done|done|done].
  - (* no line: every value was written, and none is blank *)
    assert (tags c ≠ ∅) as Ht by (intros E; apply Hs; by left).
    assert (lines (step c) = []) as Hl by (destruct (decide (lines (step c) = [])) as [?|H]; [done|destruct Hs; by right]).
    pose proof (cycle _ Hp) as Hc. unfold settled in Hs. change (tags (step c)) with (tags c) in *.
    assert (lines c = [] ∧ blank_lines (value_tags c) = []) as [Hl0 Hb0].
    { unfold step in Hl. cbn [lines] in Hl. apply app_nil in Hl as [Hl1 [_ Hl2]%app_nil]. split; [|done]. unfold firsts in Hl1. rewrite decide_False in Hl1 by done. by destruct (lines c). }
    assert (rest c = []) as Hr by (unfold rest; rewrite decide_False, Hl0 by done; done).
    assert (∀ k v, value_tags (step c) !! k = Some v → v ≠ [] ∧ trim v = v) as Hv.
    { intros k v H. unfold step in H. cbn [value_tags] in H. rewrite Hr in H. apply puts_in in H as [H|H]; [by cbn in H; rewrite lookup_empty in H|].
      apply elem_of_list_omap in H as ([k' v'] & _ & E). unfold written_pair in E. case_decide; [done|]. injection E as <- <-. split; [done|apply trim_trim]. }
    assert (step (step c) = step c) as E; [|by rewrite !E].
    destruct Hp as (P1 & P2 & P3).
    assert (kept (value_tags (step c)) = value_tags (step c)) as Hk.
    { apply map_eq. intros k. rewrite kept_lookup. destruct (value_tags (step c) !! k) as [v|] eqn:E; [|done]. destruct (Hv k v E) as [H1 H2]. rewrite H2. by rewrite decide_False. }
    assert (blanks (value_tags (step c)) = []) as Hb.
    { apply elem_of_nil_inv. intros k (v & E & Ev)%blanks_elem. destruct (Hv k v E). congruence. }
    assert (∀ d, tags d = tags c → lines d = [] → blanks (value_tags d) = [] → kept (value_tags d) = value_tags d → (∀ k v, value_tags d !! k = Some v → trim k = k) → step d = d) as Hd.
    { intros [l1 t1 v1] E1 E2 E3 E4 E5. cbn [tags lines value_tags] in *. subst. unfold step, firsts, rest. cbn [tags lines value_tags]. rewrite !decide_False by done.
      pose proof (blank_lines_plain v1 E5) as Hbl. unfold blank_lines in Hbl. rewrite Hbl, E3. rewrite puts_plain by done. rewrite E4. cbn. by rewrite (right_id_L ∅ (∪)). }
    by apply Hd.
Qed.

(** ** Texts *)
Lemma steps_read ho n s : (∀ i, hash_order_ok (ho i)) → ordinary (from_opt_comment s) →
  ordinary (Nat.iter n step (from_opt_comment s)) ∧ from_opt_comment (rewritten ho n s) = Nat.iter n step (from_opt_comment s).
Proof.
  intros Hho Ho. induction n as [|n [IH1 IH2]]; [done|]. cbn [rewritten]. rewrite IH2. change (Nat.iter (S n) step ?c) with (step (Nat.iter n step c)). split; [by apply step_ordinary|].
  by apply reread_step.
Qed.
Lemma iter_cycle {A} (f : A → A) (x : A) n : f (f (f (f x))) = f (f x) → 2 ≤ n → Nat.iter (n + 2) f x = Nat.iter n f x.
Proof.
  intros E Hn. replace n with ((n - 2) + 2) by lia. generalize (n - 2) as k. intros k. induction k as [|k IH]; [done|].
  change (S k + 2 + 2) with (S (k + 2 + 2)). change (S k + 2) with (S (k + 2)). change (Nat.iter (S ?m) f x) with (f (Nat.iter m f x)). by rewrite IH.
Qed.
Lemma Nat_iter_add {A} (f : A → A) (x : A) n m : Nat.iter (n + m) f x = Nat.iter n f (Nat.iter m f x).
Proof. induction n as [|n IH]; [done|]. change (S n + m) with (S (n + m)). change (Nat.iter (S ?k) f ?y) with (f (Nat.iter k f y)). by rewrite IH. Qed.
Lemma rewritten_shift ho n m s : rewritten ho (n + m) s = rewritten (λ i, ho (i + m)) n (rewritten ho m s).
Proof. induction n as [|n IH]; [done|]. cbn. by rewrite IH. Qed.
Lemma rewritten_cycle ho n s : (∀ i, hash_order_ok (ho i)) → plain (from_opt_comment s) → 3 ≤ n → rewritten ho (n + 2) s = rewritten ho n s.
Proof.
  intros Hho Hp Hn. destruct n as [|n]; [lia|]. change (S n + 2) with (S (n + 2)). cbn [rewritten].
  destruct (steps_read ho n s Hho (proj1 Hp)) as [_ ->]. destruct (steps_read ho (n + 2) s Hho (proj1 Hp)) as [_ ->].
  rewrite (iter_cycle step) by (by apply cycle || lia). by apply into_opt_comment_order.
Qed.
Lemma c119 ho n s : (∀ i, hash_order_ok (ho i)) → 5 ≤ n → rewritten ho (n + 2) s = rewritten ho n s.
Proof.
  intros Hho Hn. set (s1 := rewritten ho 1 s). assert (ordinary (from_opt_comment s1)) as Ho.
  { unfold s1. cbn. apply written_ordinary; [done|apply from_opt_comment_shape]. }
  destruct n as [|n]; [lia|]. change (S n + 2) with (S (n + 2)). cbn [rewritten].
  replace n with ((n - 1) + 1) by lia. replace (n - 1 + 1 + 2) with (n - 1 + 2 + 1) by lia. rewrite !(rewritten_shift _ _ 1). fold s1.
  destruct (steps_read (λ i, ho (i + 1)) (n - 1) s1 (λ i, Hho (i + 1)) Ho) as [_ ->].
  destruct (steps_read (λ i, ho (i + 1)) (n - 1 + 2) s1 (λ i, Hho (i + 1)) Ho) as [_ ->].
  assert (Nat.iter (n - 1 + 2) step (from_opt_comment s1) = Nat.iter (n - 1) step (from_opt_comment s1)) as ->; [|by apply into_opt_comment_order].
  revert Ho. generalize (from_opt_comment s1) as c. intros c Ho. replace (n - 1) with ((n - 2) + 1) by lia. replace (n - 2 + 1 + 2) with (n - 2 + 2 + 1) by lia.
  rewrite !(Nat_iter_add step c _ 1). apply (iter_cycle step (Nat.iter 1 step c)); [|lia]. apply cycle_three; [by apply step_ordinary|by apply plain_two].
Qed.
Lemma line_texts_sub l ts x c : line_texts l ts → x ∈ ts → c ∈ x → c ∈ l.
Proof.
  induction 1 as [l Hl|t names rest0 ts Ht Hn Hf Hr H IH]; [by intros ->%elem_of_list_singleton|].
  intros [->|Hx]%elem_of_cons Hc; [apply elem_of_app; by left|]. apply elem_of_app. right. right. apply elem_of_app. right. by apply IH.
Qed.
Lemma spaces_plain s : only_spaces s → plain (from_opt_comment s).
Proof.
  intros Hs. assert (∀ l x, l ∈ text_lines s → x ∈ l → is_ws x = true → x = space) as Hl.
  { destruct s as [s|]; [|by intros ? ? ?%elem_of_nil]. intros l x Hl Hx Hw. pose proof (split_on_elem newline s l Hl) as Hn.
    destruct (Hs s x eq_refl) as [?| ->]; [by apply (split_on_sub newline s l)|done|done|done]. }
  assert (∀ k : str, (∀ x, x ∈ k → is_ws x = true → x = space) → tag_name k → trim k = k) as Hk.
  { intros k Hx [Hne Hk]. apply trim_bare. split; [done|]. assert (∀ x, x ∈ k → is_ws x = false) as H.
    { intros x Hin. destruct (is_ws x) eqn:E; [|done]. by destruct (proj2 (Hk x Hin)), (Hx x Hin E). }
    split; intros x y ->; apply H; [left|]. apply elem_of_app. right. left. }
  assert (∀ k v, value_tags (from_opt_comment s) !! k = Some v → trim k = k) as Hkeys.
  { intros k v Hkv. destruct s as [s|]; [|by cbn in Hkv; rewrite lookup_empty in Hkv].
    destruct (proj1 (keys_exact s k)) as (l & Hin & Hvl); [by eexists|]. destruct Hvl as (Hn & sp & tail & Hsp & -> & _). apply Hk; [|done].
    intros x Hx. apply (Hl _ _ Hin). rewrite !elem_of_app. right. by left. }
  split; [|split; [done|]].
  - split; [apply from_opt_comment_shape|]. intros k v Hkv E. rewrite (Hkeys k v Hkv) in E. subst k. by destruct (ps_keys _ (from_opt_comment_shape s) _ _ Hkv) as [[? _] _].
  - intros l k v Hin Hc. apply Hk; [|by eapply conv_key]. assert (l ∈ lines (from_opt_comment s)) as Hls by (rewrite <- firsts_rest; apply elem_of_app; by right).
    unfold conv in Hc. destruct (value_tag_rx l) as [[k' v']|] eqn:E; [|done]. injection Hc as -> _. apply value_tag_rx_line in E as (_ & sp & tail & _ & -> & _).
    intros x Hx Hw. destruct s as [s|]; [|by apply elem_of_nil in Hls]. destruct (lines_exact s) as (tss & Hf & El). 
    rewrite El in Hls. apply elem_of_list_filter in Hls as [_ Hls]. apply elem_of_list_fmap in Hls as (y & Ey & Hy). apply elem_of_list_join in Hy as (ts & Hy & Hts).
    apply elem_of_list_lookup in Hts as [i Hi]. destruct (Forall2_lookup_r _ _ _ _ _ Hf Hi) as (w & Hw1 & Hw2).
    destruct Hw2 as [[_ ->]|[_ Hw2]]; [by apply elem_of_nil in Hy|]. apply (Hl w x); [by eapply elem_of_list_lookup_2| |done].
    apply (line_texts_sub w ts y x Hw2 Hy). apply trim_sub. rewrite <- Ey. rewrite !elem_of_app. right. by left.
Qed.
Lemma c119_spaces ho n s : (∀ i, hash_order_ok (ho i)) → only_spaces s → 3 ≤ n → rewritten ho (n + 2) s = rewritten ho n s.
Proof. intros Hho Hs. apply rewritten_cycle; [done|by apply spaces_plain]. Qed.

(** ** Files *)
Definition rewritten_trn (ho : nat → hash_order) (n : nat) (t : transaction) : transaction :=
  set_tpostings ((λ p, set_pcomment (rewritten ho n (p_comment p)) p) <$> t_postings t) (set_tcomment (rewritten ho n (t_comment t)) t).
Lemma rewritten_all_each ho n ts : rewritten_all ho n ts = rewritten_trn ho n <$> ts.
Proof.
  induction n as [|n IH].
  - cbn [rewritten_all]. rewrite <- (list_fmap_id ts) at 1. apply list_fmap_ext. intros i t _. unfold rewritten_trn, id. cbn [rewritten].
    destruct t as [tc td te ts' tco tde ps]. unfold set_tpostings, set_tcomment. cbn [t_postings t_comment t_date t_effective_date t_status t_code t_description].
    assert ((λ p, set_pcomment (p_comment p) p) <$> ps = ps) as ->; [|done].
    rewrite <- (list_fmap_id ps) at 2. apply list_fmap_ext. intros j p _. by destruct p.
  - cbn [rewritten_all]. rewrite IH, <- list_fmap_compose. apply list_fmap_ext. intros i t _. unfold compose, rewritten_trn, transaction_of_postings, transaction_postings_of.
    unfold transaction_of, transaction_internal_of. cbn [tp_trn tp_posts ti_raw ti_comment].
    destruct t as [tc td te ts' tco tde ps]. unfold set_tpostings, set_tcomment. cbn [t_postings t_comment t_date t_effective_date t_status t_code t_description ti_raw ti_comment]. f_equal. rewrite <- !list_fmap_compose. apply list_fmap_ext. intros j p _. by destruct p.
Qed.
Lemma c119_files ho n ts : (∀ i, hash_order_ok (ho i)) → 5 ≤ n → rewritten_all ho (n + 2) ts = rewritten_all ho n ts.
Proof.
  intros Hho Hn. rewrite !rewritten_all_each. apply list_fmap_ext. intros i t _. unfold rewritten_trn. rewrite c119 by done. f_equal.
  apply list_fmap_ext. intros j p _. by rewrite c119.
Qed.

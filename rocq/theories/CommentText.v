(** The text of comment lines (C37, C101). *)
From Verif Require Import Base Types BaseProofs StrProofs CommentModel CommentClaims CommentProofs CommentLaws CommentTextClaims.
From Coq Require Import Lia.
Local Open Scope nat_scope.

Lemma flag_scan_texts fuel acc s gs tail : length s ≤ fuel → flag_scan fuel acc s = (gs, tail) →
  (∀ a t b, tag_name t → reverse acc ++ s = a ++ COLON :: t ++ COLON :: b → length acc ≤ length a) →
  line_texts (reverse acc ++ s) (gs.*1 ++ [tail]).
Proof.
  assert (∀ acc, (∀ a t b, tag_name t → reverse acc ++ [] = a ++ COLON :: t ++ COLON :: b → length acc ≤ length a) →
    line_texts (reverse acc ++ []) [reverse acc]) as Hbase.
  { clear. intros acc Hinv. rewrite app_nil_r in *. constructor. intros t (Ht & a & b & E). pose proof (Hinv a t b Ht E) as Hl.
    apply (f_equal length) in E. rewrite reverse_length, app_length in E. simpl in E. lia. }
  revert acc s gs tail. induction fuel as [|fuel IH]; intros acc s gs tail Hlen Hs Hinv.
  { destruct s; [|simpl in Hlen; lia]. simpl in Hs. injection Hs as <- <-. rewrite app_nil_r. cbn [fmap list_fmap app]. rewrite <- (app_nil_r (reverse acc)) at 1. by apply Hbase. }
  destruct s as [|c s].
  { simpl in Hs. injection Hs as <- <-. by apply Hbase. }
  simpl in Hlen. cbn [flag_scan] in Hs.
  assert (flag_scan fuel (c :: acc) s = (gs, tail) → (c ≠ COLON ∨ ¬ starts_flag s) → line_texts (reverse acc ++ c :: s) (gs.*1 ++ [tail])) as Hskip.
  { intros E Hns. assert (reverse acc ++ c :: s = reverse (c :: acc) ++ s) as Ea.
    { rewrite reverse_cons, <- (assoc_L (++)). done. }
    rewrite Ea. apply IH; [lia|done|]. rewrite <- Ea. intros a t b Ht E'.
    pose proof (Hinv a t b Ht E') as Hl. simpl. destruct (decide (length a = length acc)) as [El|]; [|lia].
    apply app_inj_1 in E' as [_ E']; [|by rewrite reverse_length]. simplify_eq.
    destruct Hns as [?|[]]; [done|]. by exists t, b. }
  destruct (N.eqb_spec c COLON) as [->|Hc]; [|by auto].
  destruct (flag_reps (length s) s) as [m rest] eqn:Er.
  destruct (flag_reps_spec _ _ _ _ (le_n _) Er) as (runs & Hruns & -> & E & Hnst).
  destruct runs as [|r runs].
  { simpl in *. apply Hskip; [done|]. right. by rewrite E. }
  destruct (group (r :: runs)) as [|g0 g] eqn:Eg.
  { rewrite group_cons in Eg. by destruct r. }
  rewrite <- Eg in E. clear Hskip.
  destruct (flag_scan fuel [] rest) as [ms tl] eqn:Ems. injection Hs as <- <-.
  assert (line_texts rest (ms.*1 ++ [tl])) as Hrest.
  { apply (IH [] rest); [|done|]. - subst s. rewrite app_length in Hlen. lia. - simpl. lia. }
  rewrite fmap_cons. cbn [fst app]. rewrite E. unfold group. change COLON with colon. constructor; [|done|done| |done].
  - intros t (Ht & a & b & E'). assert (length acc ≤ length a) as Hl.
    { apply (Hinv a t (b ++ s) Ht). rewrite (cons_middle COLON), (assoc_L (++)). change COLON with colon.
      rewrite E', <- !(assoc_L (++)). simpl. by rewrite <- !(assoc_L (++)). }
    apply (f_equal length) in E'. rewrite !app_length, reverse_length in E'. simpl in E'. rewrite app_length in E'. simpl in E'. lia.
  - intros n b Hn ->. apply Hnst. by exists n, b.
Qed.

Lemma line_has_texts l : line_texts l ((flag_scan (length l) [] l).1.*1 ++ [(flag_scan (length l) [] l).2]).
Proof. eapply (flag_scan_texts (length l) [] l); [done|apply surjective_pairing|]. simpl. lia. Qed.

(** * There is one way to divide a line *)
Lemma groups_inj names names' rest rest' : Forall tag_name names → Forall tag_name names' → ¬ starts_flag rest → ¬ starts_flag rest' →
  group names ++ rest = group names' ++ rest' → rest = rest'.
Proof.
  intros H. revert names'. induction H as [|n names Hn H IH]; intros names' H' Hr Hr' E; destruct H' as [|n' names' Hn' H'].
  - done.
  - destruct Hr. rewrite group_cons, <- (assoc_L (++)) in E. by exists n', (group names' ++ rest').
  - destruct Hr'. rewrite group_cons, <- (assoc_L (++)) in E. by exists n, (group names ++ rest).
  - rewrite !group_cons, <- !(assoc_L (++)) in E. simpl in E. apply name_prefix_inj in E as [_ E]; [|done..]. by eapply IH.
Qed.
Lemma before_flags t n b t' b' : no_flags (t' ++ [colon]) → tag_name n → t ++ colon :: n ++ colon :: b = t' ++ colon :: b' →
  length t' ≤ length t.
Proof.
  intros Hf Hn E. destruct (decide (length t' ≤ length t)) as [|Hlt]; [done|]. exfalso.
  assert (t' = t ++ colon :: drop (S (length t)) t') as Et.
  { rewrite <- (take_drop (S (length t)) t') at 1. rewrite (cons_middle colon), (assoc_L (++)). f_equal.
    apply (f_equal (take (S (length t)))) in E. rewrite (take_app_le t') in E by lia. rewrite <- E.
    rewrite (cons_middle colon t (n ++ colon :: b)), (assoc_L (++)), take_app_alt; [done|]. rewrite app_length. simpl. lia. }
  set (x := drop (S (length t)) t') in *. rewrite Et, <- (assoc_L (++)) in E. apply app_inv_head in E. injection E as E.
  assert (∃ y, x ++ [colon] = n ++ colon :: y) as [y Ey].
  { clear -E Hn. destruct Hn as [_ Hc]. revert n Hc E. induction x as [|c x IH]; intros [|d n] Hc E.
    - by exists [].
    - injection E as -> _. destruct (Hc colon) as [[] _]; [left|done].
    - injection E as <- _. by exists (x ++ [colon]).
    - injection E as -> E. destruct (IH n) as [y Ey]; [|done|exists y; cbn [app]; by rewrite Ey]. intros e He. apply Hc. by right. }
  apply (Hf n). split; [done|]. exists t, y. by rewrite Et, <- (assoc_L (++)), <- Ey.
Qed.
Lemma line_texts_unique l ts ts' : line_texts l ts → line_texts l ts' → ts = ts'.
Proof.
  intros H. revert ts'. induction H as [l Hl|t names rest ts Ht Hne Hn Hmax H IH]; intros ts' H'.
  - inversion H' as [|t names rest ts2 Ht Hne Hn]; subst; [done|]. destruct Hn as [|n names Hn1 Hn]; [done|].
    destruct (Hl n). split; [done|]. rewrite bind_cons. eexists t, _. by rewrite <- !(assoc_L (++)).
  - inversion H' as [? Hl|t' names' rest' ts2 Ht' Hne' Hn' Hmax' H2 E]; subst.
    { destruct Hn as [|n names Hn1 Hn]; [done|]. destruct (Hl n). split; [done|]. rewrite bind_cons. eexists t, _. by rewrite <- !(assoc_L (++)). }
    fold (group names) in *. fold (group names') in *.
    assert (length t = length t') as Hlen.
    { apply (anti_symm (≤)).
      - destruct Hn' as [|n names' Hn1 Hn']; [done|]. rewrite group_cons, <- (assoc_L (++)) in E. simpl in E. by eapply before_flags.
      - destruct Hn as [|n names Hn1 Hn]; [done|]. rewrite group_cons, <- (assoc_L (++)) in E. simpl in E. symmetry in E. by eapply before_flags. }
    apply app_inj_1 in E as [-> E]; [|done]. injection E as E. f_equal. apply IH.
    apply groups_inj in E as ->; [done..| |]; intros (n & b & Hn1 & ->); [by eapply Hmax'|by eapply Hmax].
Qed.

(** * The text of a comment *)
Lemma parse_line_lines l c : newline ∉ l → ∃ ts, adds_text l ts ∧ lines (parse_line l c) = lines c ++ keep ts.
Proof.
  intros Hnl. destruct (value_tag_rx l) as [[k v]|] eqn:E.
  - exists []. split; [left; split; [|done]; exists k; by eapply value_tag_rx_line|]. rewrite (parse_line_value _ _ _ _ E). simpl. by rewrite app_nil_r.
  - exists ((flag_scan (length l) [] l).1.*1 ++ [(flag_scan (length l) [] l).2]). split.
    { right. split; [by apply value_tag_rx_None|apply line_has_texts]. }
    unfold parse_line. rewrite E. destruct (flag_scan (length l) [] l) as [gs tail]. cbn [fst snd]. rewrite push_text_keep. cbn [lines].
    rewrite keep_app. rewrite (assoc_L (++)). f_equal. clear. revert c. induction gs as [|[t g] gs IH]; intros c; cbn [foldl].
    { simpl. by rewrite app_nil_r. }
    rewrite IH. rewrite fmap_cons. cbn [fst]. change (t :: gs.*1) with ([t] ++ gs.*1). rewrite (keep_app [t]), (assoc_L (++)). f_equal. unfold set_tags. cbn [lines]. by rewrite push_text_keep.
Qed.
Lemma parse_lines_lines ls c : (∀ l, l ∈ ls → newline ∉ l) →
  ∃ tss, Forall2 adds_text ls tss ∧ lines (parse_lines c ls) = lines c ++ keep (mjoin tss).
Proof.
  revert c. induction ls as [|l ls IH]; intros c Hnl.
  { exists []. split; [constructor|]. simpl. by rewrite app_nil_r. }
  destruct (parse_line_lines l c) as (ts & H1 & H2); [apply Hnl; left|].
  destruct (IH (parse_line l c)) as (tss & H3 & H4); [intros; apply Hnl; by right|].
  exists (ts :: tss). split; [by constructor|]. change (parse_lines c (l :: ls)) with (parse_lines (parse_line l c) ls).
  rewrite H4, H2, <- (assoc_L (++)), <- keep_app. done.
Qed.
Lemma lines_exact s : ∃ tss, Forall2 adds_text (split_on newline s) tss ∧
  lines (from_opt_comment (Some s)) = filter (λ t, t ≠ []) (trim <$> mjoin tss).
Proof.
  destruct (parse_lines_lines (split_on newline s) comment_new) as (tss & H1 & H2); [intros l Hl; by eapply split_on_elem|].
  exists tss. split; [done|]. etrans; [exact H2|]. done.
Qed.

(** * What reformatting keeps *)
Lemma format_lines_elem out ls x : x ∈ ls → ∃ l, l ∈ format_lines out ls ∧ ends_with (trim x) l.
Proof.
  intros Hx. unfold format_lines. destruct ls as [|y ls]; [by apply elem_of_nil in Hx|]. destruct out as [|o out].
  - exists (trim x). split; [by apply elem_of_list_fmap_1|by left].
  - apply elem_of_cons in Hx as [<-|Hx].
    + exists (o ++ SPACE :: trim x). split; [left|]. right. by exists o.
    + exists (trim x). split; [|by left]. right. apply elem_of_app. right. by apply elem_of_list_fmap_1.
Qed.
Lemma format_lines_sub out ls l c : l ∈ format_lines out ls → c ∈ l → c = SPACE ∨ (∃ o, o ∈ out ∧ c ∈ o) ∨ ∃ x, x ∈ ls ∧ c ∈ x.
Proof.
  unfold format_lines. destruct ls as [|y ls]; [eauto|]. destruct out as [|o out].
  - intros (x & -> & Hx)%elem_of_list_fmap Hc. right. right. exists x. split; [done|by apply trim_sub].
  - intros [->|[H|(x & -> & Hx)%elem_of_list_fmap]%elem_of_app]%elem_of_cons Hc.
    + apply elem_of_app in Hc as [Hc|[->|Hc]%elem_of_cons]; [right; left; exists o; split; [left|done]|by left|].
      right. right. exists y. split; [left|by apply trim_sub].
    + right. left. exists l. split; [by right|done].
    + right. right. exists x. split; [by right|by apply trim_sub].
Qed.
Lemma formatted_lines ho c : hash_order_ok ho → parsed_shape c →
  text_lines (into_opt_comment ho c) = format_lines (format_tags ho (tags c)) (lines c) ++ format_values ho (value_tags c).
Proof.
  intros Hho Hs. unfold into_opt_comment. destruct (format_lines _ _ ++ _) as [|o out] eqn:E; [done|]. unfold text_lines. rewrite <- E.
  apply split_join; [by rewrite E|]. clear E o out. apply Forall_forall. intros l [Hl|Hl]%elem_of_app Hc.
  - destruct (format_lines_sub _ _ _ _ Hl Hc) as [?|[(o & Ho & Hco)|(x & Hx & Hcx)]]; [done| |].
    + rewrite format_tags_runs in Ho. apply elem_of_list_fmap in Ho as (r & -> & Hr). apply elem_of_cons in Hco as [?|Hco]; [done|].
      unfold group in Hco. apply elem_of_list_bind in Hco as (t & Hct & Htr). apply elem_of_app in Hct as [Hct|?%elem_of_list_singleton]; [|done].
      destruct (ps_tags c Hs t) as [_ Hn]; [|done]. rewrite (tag_runs_elem ho); [by eexists|done].
    + by destruct (ps_lines c Hs x Hx) as (_ & _ & Hn & _).
  - unfold format_values in Hl. apply elem_of_list_fmap in Hl as ([k v] & -> & Hkv). rewrite (stable_sort_perm _ _) in Hkv.
    destruct (Hho) as (_ & _ & Hv). rewrite (Hv str (value_tags c)) in Hkv. apply elem_of_map_to_list in Hkv.
    apply elem_of_app in Hc as [Hc%trim_sub|Hc]; [by destruct (ps_keys c Hs k v Hkv)|].
    apply elem_of_cons in Hc as [?|[?|Hc%trim_sub]%elem_of_cons]; [done..|]. by apply (ps_values c Hs k v Hkv).
Qed.
Lemma reformat_keeps ho s : hash_order_ok ho →
  let out := text_lines (into_opt_comment ho (from_opt_comment (Some s))) in
  (∀ l t, l ∈ split_on newline s → (∀ k, ¬ value_line k l) → flag_in t l → ∃ l', l' ∈ out ∧ flag_in t l') ∧
  (∀ l ts x, l ∈ split_on newline s → (∀ k, ¬ value_line k l) → line_texts l ts → x ∈ ts → trim x ≠ [] → ∃ l', l' ∈ out ∧ ends_with (trim x) l') ∧
  (∀ k v, last_value (split_on newline s) k v → trim k ++ colon :: space :: trim v ∈ out).
Proof.
  intros Hho out. unfold out. rewrite formatted_lines; [|done|apply from_opt_comment_shape]. clear out. set (c := from_opt_comment (Some s)). split_and!.
  - intros l t Hl Hv Ht. assert (t ∈ tags c) as Htc by (apply flags_exact; eauto).
    rewrite (tag_runs_elem ho) in Htc by done. destruct Htc as (r & Hr & Htr).
    destruct (group_split t r Htr) as (a & b & E).
    destruct (format_lines_prefix (format_tags ho (tags c)) (lines c) (COLON :: group r)) as [x Hx].
    { rewrite format_tags_runs. apply elem_of_list_fmap. eauto. }
    exists ((COLON :: group r) ++ x). split; [apply elem_of_app; by left|]. rewrite E. split; [apply Ht|]. exists a, (b ++ x).
    rewrite <- (assoc_L (++)). simpl. by rewrite <- (assoc_L (++)).
  - intros l ts x Hl Hv Hts Hx Hne. destruct (lines_exact s) as (tss & H1 & H2).
    assert (trim x ∈ lines c) as Hc.
    { unfold c. rewrite H2. apply elem_of_list_filter. split; [done|]. apply elem_of_list_fmap_1, elem_of_list_join. exists ts. split; [done|].
      apply elem_of_list_lookup in Hl as [i Hi]. destruct (Forall2_lookup_l _ _ _ _ _ H1 Hi) as (ts' & Hi' & [[[k Hk] _]|[_ Ht']]); [by destruct (Hv k)|].
      rewrite (line_texts_unique _ _ _ Hts Ht'). by eapply elem_of_list_lookup_2. }
    destruct (format_lines_elem (format_tags ho (tags c)) _ _ Hc) as (l' & Hl' & He). exists l'. split; [apply elem_of_app; by left|]. by rewrite trim_trim in He.
  - intros k v Hkv. apply elem_of_app. right. apply (values_exact s k v) in Hkv. unfold format_values. apply elem_of_list_fmap. exists (k, v). split; [done|].
    rewrite (stable_sort_perm _ _). destruct Hho as (_ & _ & Hv). rewrite (Hv str (value_tags c)). by apply elem_of_map_to_list.
Qed.

(** The flag tags of a comment that was written and read again. *)
From Verif Require Import Base Types SpecBase BaseProofs StrProofs CommentModel CommentClaims CommentTextClaims CommentProofs CommentLaws CommentText.
Local Open Scope nat_scope.

Lemma flag_in_space t o x : flag_in t (o ++ space :: x) ↔ flag_in t o ∨ flag_in t x.
Proof.
  split.
  - intros [Hn (a & b & E)]. destruct (app_eq_inv _ _ _ _ E) as [(k & -> & E2)|(k & -> & E2)].
    + change (colon :: t ++ colon :: b) with ([colon] ++ t ++ colon :: b) in E2. 
      assert ([colon] ++ t ++ colon :: b = (colon :: t ++ [colon]) ++ b) as Eb by (cbn; by rewrite <- app_assoc). rewrite Eb in E2.
      destruct (app_eq_inv _ _ _ _ E2) as [(k' & E3 & E4)|(k' & -> & E4)].
      * destruct k' as [|c k']; [|].
        -- cbn in E4. subst b. left. split; [done|]. exists a, []. rewrite app_nil_r in E3. by rewrite <- E3.
        -- injection E4 as <- ->. exfalso. assert (space ∈ colon :: t ++ [colon]) as H by (rewrite E3; apply elem_of_app; right; left).
           apply elem_of_cons in H as [H|[H|H%elem_of_list_singleton]%elem_of_app]; [done| |done]. by destruct (proj2 Hn _ H).
      * left. split; [done|]. exists a, k'. cbn. by rewrite <- app_assoc.
    + destruct k as [|c k]; [done|]. injection E2 as <- ->. right. split; [done|]. by exists k, b.
  - intros [H|H]; [by apply flag_in_app_r|]. apply (flag_in_app_l t (o ++ [space])) in H. by rewrite <- app_assoc in H.
Qed.
Lemma flag_in_ws t a s b : Forall (λ c, is_ws c = true) a → Forall (λ c, is_ws c = true) b → flag_in t (a ++ s ++ b) → flag_in t s.
Proof.
  intros Ha Hb H. assert (flag_in t (s ++ b)) as [Hn (x & y & E)].
  { clear Hb. induction Ha as [|c a Hc Ha IH]; [done|]. apply IH. apply (flag_in_cons t c); [|done]. intros ->. done. }
  split; [done|]. assert (x ++ colon :: t ++ colon :: y = (x ++ colon :: t ++ [colon]) ++ y) as Ey by (rewrite <- app_assoc; cbn; by rewrite <- app_assoc).
  rewrite Ey in E. destruct (app_eq_inv _ _ _ _ E) as [(k & -> & _)|(k & E1 & E2)]; [exists x, k; rewrite <- app_assoc; cbn; by rewrite <- app_assoc|].
  destruct k as [|c k _] using rev_ind; [rewrite app_nil_r in E1; by exists x, []|].
  exfalso. assert (∃ z, x ++ colon :: t ++ [colon] = z ++ [colon]) as [z Ez] by (exists (x ++ colon :: t); by rewrite <- app_assoc).
  rewrite Ez, app_assoc in E1. apply app_inj_2 in E1 as [_ E1]; [|done]. injection E1 as <-.
  rewrite Forall_forall in Hb. specialize (Hb colon). rewrite E2 in Hb. assert (is_ws colon = true) as H1; [|done]. apply Hb. rewrite !elem_of_app. left. right. by left.
Qed.
Lemma flag_in_trim t s : flag_in t (trim s) ↔ flag_in t s.
Proof.
  destruct (trim_split s) as (a & b & E & Ha & Hb). split.
  - intros H. rewrite E. by apply flag_in_app.
  - rewrite E at 1. by apply flag_in_ws.
Qed.
Lemma flag_in_group t r : Forall tag_name r → flag_in t (COLON :: group r) → t ∈ r.
Proof.
  intros Hr [Hn (a & b & E)]. destruct (runs_find r [] t a b Hr) as [?|[_ (x & y & E2)]]; [..|done|].
  - intros (u & x & Hu & E2). destruct u; [by destruct Hu|done].
  - done.
  - rewrite app_nil_r. exact E.
  - by destruct x.
Qed.
Lemma format_lines_flags out ls l t : l ∈ format_lines out ls → (∀ x, x ∈ ls → no_flags x) → flag_in t l → ∃ o, o ∈ out ∧ flag_in t o.
Proof.
  intros Hl Hls Ht. unfold format_lines in Hl. destruct ls as [|y ls]; [by exists l|]. destruct out as [|o out].
  - apply elem_of_list_fmap in Hl as (x & -> & Hx). rewrite flag_in_trim in Ht. by destruct (Hls x Hx t).
  - apply elem_of_cons in Hl as [->|[Hl|(x & -> & Hx)%elem_of_list_fmap]%elem_of_app].
    + apply flag_in_space in Ht as [Ht|Ht]; [exists o; split; [left|done]|]. rewrite flag_in_trim in Ht. by destruct (Hls y (elem_of_list_here _ _) t).
    + exists l. split; [by right|done].
    + rewrite flag_in_trim in Ht. by destruct (Hls x (elem_of_list_further _ _ _ Hx) t).
Qed.
Lemma pair_line_flags k v t : tag_name k → newline ∉ k → newline ∉ v →
  (value_tag_rx (trim k ++ [COLON; SPACE] ++ trim v) = None ∧ flag_in t (trim k ++ [COLON; SPACE] ++ trim v)) ↔ trim k = [] ∧ flag_in t v.
Proof.
  intros [Hk1 Hk2] Hnk Hnv. destruct (trim k) as [|c k'] eqn:Ek.
  - split.
    + intros [_ H]. split; [done|]. change ([] ++ [COLON; SPACE] ++ trim v) with ([COLON] ++ space :: trim v) in H. apply flag_in_space in H as [H|H].
      * destruct H as [Hn (a & b & E)]. destruct a as [|? [|? ?]]; [|done..]. injection E as E. destruct t; [by destruct Hn|done].
      * by rewrite flag_in_trim in H.
    + intros [_ H]. split; [apply value_tag_rx_colon|]. change ([] ++ [COLON; SPACE] ++ trim v) with ([COLON; space] ++ trim v). apply flag_in_app_l. by rewrite flag_in_trim.
  - split; [|by intros [? _]]. intros [Hrx H]. exfalso. rewrite <- Ek in *.
    assert (tag_name (trim k)) as Hn.
    { split; [by rewrite Ek|]. intros x Hx%trim_sub. by apply Hk2. }
    assert (newline ∉ trim k ++ [COLON; SPACE] ++ trim v) as Hnl.
    { intros [Hx%trim_sub|[?|[?|Hx%trim_sub]%elem_of_cons]%elem_of_cons]%elem_of_app; done. }
    destruct (decide (trim v = [])) as [Ev|Ev].
    + rewrite Ev in H. change ([COLON; SPACE] ++ []) with ([COLON] ++ space :: []) in H. rewrite app_assoc in H. apply flag_in_space in H as [H|H].
      * destruct H as [Ht (a & b & E)]. assert (∃ z, a ++ colon :: t ++ colon :: b = z ++ colon :: b ∧ colon ∈ z) as (z & Ez & Hz).
        { exists (a ++ colon :: t). split; [by rewrite <- app_assoc|]. apply elem_of_app. right. left. }
        rewrite Ez in E. destruct b as [|x b _] using rev_ind.
        -- apply app_inj_2 in E as [<- _]; [|done]. by destruct (proj2 Hn _ Hz).
        -- rewrite (app_comm_cons b), app_assoc in E. apply app_inj_2 in E as [E _]; [|done]. assert (colon ∈ trim k) as Hc by (rewrite E; apply elem_of_app; by left).
           by destruct (proj2 Hn _ Hc).
      * destruct H as [_ (a & b & E)]. by destruct a.
    + rewrite (value_tag_rx_None _ Hnl) in Hrx. apply (Hrx (trim k)). split; [done|]. exists [], (space :: trim v). split; [by intros ? ?%elem_of_nil|]. split; [done|].
      right. exists [space], (trim v). split; [done|]. split; [by intros ? ->%elem_of_list_singleton|done].
Qed.
Lemma from_text_lines s : from_opt_comment s = parse_lines comment_new (text_lines s).
Proof. by destruct s. Qed.
Lemma reread_tags ho c t : hash_order_ok ho → parsed_shape c →
  t ∈ tags (from_opt_comment (into_opt_comment ho c)) ↔ t ∈ tags c ∨ ∃ k v, value_tags c !! k = Some v ∧ trim k = [] ∧ flag_in t v.
Proof.
  intros Hho Hs. split.
  - rewrite from_text_lines, (formatted_lines ho c Hho Hs), parse_tags. intros [?%elem_of_empty|(l & [Hl|Hl]%elem_of_app & Hrx & Ht)]; [done| |].
    + left. destruct (format_lines_flags _ _ _ t Hl) as (o & Ho & Hto); [|done|].
      { intros x Hx. by destruct (ps_lines c Hs x Hx) as (_ & _ & _ & ?). }
      rewrite format_tags_runs in Ho. apply elem_of_list_fmap in Ho as (r & -> & Hr). apply flag_in_group in Hto.
      * apply (tag_runs_elem ho _ _ Hho). by exists r.
      * apply Forall_forall. intros u Hu. apply (ps_tags c Hs). apply (tag_runs_elem ho _ _ Hho). by exists r.
    + right. unfold format_values in Hl. apply elem_of_list_fmap in Hl as ([k v] & -> & Hkv). rewrite (stable_sort_perm _ _) in Hkv.
      destruct (Hho) as (_ & _ & Hv). rewrite (Hv str (value_tags c)) in Hkv. apply elem_of_map_to_list in Hkv. exists k, v. split; [done|].
      destruct (ps_keys c Hs k v Hkv). apply pair_line_flags; [done|done|by apply (ps_values c Hs k v)|done].
  - intros [Ht|(k & v & Hkv & Hb & Ht)].
    + destruct (ps_tags c Hs t Ht) as [Hn _]. apply tags_survive; [done| |done|done]. intros u Hu. by destruct (ps_tags c Hs u Hu).
    + destruct (ps_keys c Hs k v Hkv) as [Hk Hnk]. pose proof (ps_values c Hs k v Hkv) as Hnv.
      destruct (proj2 (pair_line_flags k v t Hk Hnk Hnv) (conj Hb Ht)) as [H1 H2].
      rewrite from_text_lines, (formatted_lines ho c Hho Hs), parse_tags. right. exists (trim k ++ [COLON; SPACE] ++ trim v). split; [|done].
      apply elem_of_app. right. unfold format_values. apply elem_of_list_fmap. exists (k, v). split; [done|]. rewrite (stable_sort_perm _ _).
      destruct (Hho) as (_ & _ & Hv). rewrite (Hv str (value_tags c)). by apply elem_of_map_to_list.
Qed.

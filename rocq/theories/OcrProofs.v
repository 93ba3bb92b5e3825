(** Proofs about recognised documents (C64). *)
From stdpp Require Import list.
From Verif Require Import Base BaseProofs OcrModel OcrClaims.
Local Open Scope Z_scope.

(** * Lists *)
Lemma num_to_idx_ok n i : num_to_idx n = Ok i ↔ n = Z.of_nat i + 1.
Proof.
  unfold num_to_idx. destruct (n <? 1) eqn:E; [apply Z.ltb_lt in E|apply Z.ltb_ge in E]; split; intros H; try done; try lia.
  - injection H as <-. lia.
  - f_equal. lia.
Qed.
Lemma get_checked_ok {T} (v : list T) num f v' : get_checked_mut v num f = Ok v' ↔
  ∃ a x x' b, v = a ++ x :: b ∧ num = Z.of_nat (length a) + 1 ∧ f x = Ok x' ∧ v' = a ++ x' :: b.
Proof.
  unfold get_checked_mut. split.
  - intros (i & Hi%num_to_idx_ok & H)%rbind_ok. destruct (v !! i) as [x|] eqn:Ex; [|done].
    apply rbind_ok in H as (x' & Hx' & [= <-]). apply elem_of_list_split_length in Ex as (a & b & -> & ->).
    exists a, x, x', b. split_and!; [done|done|done|]. by rewrite insert_app_r_alt, Nat.sub_diag by lia.
  - intros (a & x & x' & b & -> & Hn & Hf & ->).
    rewrite (proj2 (num_to_idx_ok num (length a)) Hn). cbn [rbind]. rewrite list_lookup_middle by done.
    rewrite Hf. cbn [rbind]. by rewrite insert_app_r_alt, Nat.sub_diag by lia.
Qed.
Lemma push_checked_ok {T} (v : list T) num x v' : push_checked v num x = Ok v' ↔ num = Z.of_nat (length v) + 1 ∧ v' = v ++ [x].
Proof.
  unfold push_checked. split.
  - intros (i & Hi%num_to_idx_ok & H)%rbind_ok. case_bool_decide as E; [|done]. subst i. by injection H as <-.
  - intros [Hn ->]. rewrite (proj2 (num_to_idx_ok num (length v)) Hn). cbn [rbind]. by rewrite bool_decide_true.
Qed.

Lemma numbered_snoc {A} (num : A → Z) l x : numbered num l → num x = Z.of_nat (length l) + 1 → numbered num (l ++ [x]).
Proof.
  intros H Hx i y Hy. apply lookup_app_Some in Hy as [Hy|[Hl Hy]]; [by apply H|].
  apply list_lookup_singleton_Some in Hy as [Hi <-]. rewrite Hx. lia.
Qed.
Lemma numbered_middle {A} (num : A → Z) a x x' b : numbered num (a ++ x :: b) → num x' = num x → numbered num (a ++ x' :: b).
Proof.
  intros H Hx i y Hy. apply lookup_app_Some in Hy as [Hy|[Hl Hy]].
  - apply H. by apply lookup_app_l_Some.
  - destruct (i - length a)%nat as [|j] eqn:E.
    + injection Hy as <-. rewrite Hx. apply H. rewrite lookup_app_r by lia. by rewrite E.
    + apply H. rewrite lookup_app_r by lia. by rewrite E.
Qed.
Lemma numbered_at {A} (num : A → Z) a x b : numbered num (a ++ x :: b) → num x = Z.of_nat (length a) + 1.
Proof. intros H. apply H. by apply list_lookup_middle. Qed.

(** * The parts of the document are the records *)

Record wn_page (p : page) : Prop := {
  wp_blocks : numbered bk_num (pg_blocks p);
  wp_pars : ∀ b, b ∈ pg_blocks p → numbered pa_num (bk_paragraphs b);
  wp_lines : ∀ b q, b ∈ pg_blocks p → q ∈ bk_paragraphs b → numbered ln_num (pa_lines q);
  wp_words : ∀ b q l, b ∈ pg_blocks p → q ∈ bk_paragraphs b → l ∈ pa_lines q → numbered wd_num (ln_words l);
}.
Definition wn_par (q : paragraph) : Prop := numbered ln_num (pa_lines q) ∧ ∀ l, l ∈ pa_lines q → numbered wd_num (ln_words l).
Definition wn_block (b : block) : Prop := numbered pa_num (bk_paragraphs b) ∧ ∀ q, q ∈ bk_paragraphs b → wn_par q.
Lemma wn_page_alt p : wn_page p ↔ numbered bk_num (pg_blocks p) ∧ ∀ b, b ∈ pg_blocks p → wn_block b.
Proof.
  split.
  - intros [H1 H2 H3 H4]. split; [done|]. intros b Hb. split; [by apply H2|]. intros q Hq. split; [by apply (H3 b)|]. intros l Hl. by apply (H4 b q).
  - intros [H1 H2]. split; [done|..].
    + intros b Hb. by apply H2.
    + intros b q Hb Hq. by apply (H2 b).
    + intros b q l Hb Hq Hl. destruct (H2 b Hb) as [_ H3]. by apply (H3 q).
Qed.
Lemma wn_alt doc : well_numbered doc ↔ numbered pg_num doc ∧ ∀ p, p ∈ doc → wn_page p.
Proof.
  split.
  - intros []. split; [done|]. intros p Hp. constructor; eauto.
  - intros [H1 H2]. constructor; [done|..].
    + intros p Hp. apply (H2 p Hp).
    + intros p b Hp. apply (H2 p Hp).
    + intros p b q Hp. apply (H2 p Hp).
    + intros p b q l Hp. apply (H2 p Hp).
Qed.

(** Updating one element. *)
Lemma update_one {A} (num : A → Z) (P : A → Prop) (g : A → list node) (k : A → list node) v n f v' nd :
  numbered num v → (∀ x, x ∈ v → P x) → get_checked_mut v n f = Ok v' →
  (∀ x x', P x → num x = n → f x = Ok x' → num x' = num x ∧ P x' ∧ g x' ≡ₚ nd :: g x) →
  numbered num v' ∧ (∀ x, x ∈ v' → P x) ∧ v' ≫= g ≡ₚ nd :: (v ≫= g).
Proof.
  intros Hn HP (a & x & x' & b & -> & Hnum & Hf & ->)%get_checked_ok Hstep.
  pose proof (numbered_at _ _ _ _ Hn) as Hx.
  destruct (Hstep x x') as (H1 & H2 & H3); [apply HP; set_solver|congruence|done|]. split_and!.
  - by apply (numbered_middle _ _ x).
  - intros y. rewrite elem_of_app, elem_of_cons. intros [Hy|[->|Hy]]; [apply HP; set_solver|done|apply HP; set_solver].
  - rewrite !bind_app, !bind_cons, H3. cbn [app]. symmetry. apply Permutation_middle.
Qed.
Lemma push_one {A} (num : A → Z) (P : A → Prop) (g : A → list node) v n x v' nd :
  numbered num v → (∀ x, x ∈ v → P x) → push_checked v n x = Ok v' → num x = n → P x → g x = [nd] →
  numbered num v' ∧ (∀ x, x ∈ v' → P x) ∧ v' ≫= g ≡ₚ nd :: (v ≫= g).
Proof.
  intros Hn HP [Hl ->]%push_checked_ok Hx Px Hg. split_and!.
  - apply numbered_snoc; [done|congruence].
  - intros y. rewrite elem_of_app, elem_of_list_singleton. intros [Hy | ->]; auto.
  - rewrite bind_app, bind_cons, Hg. cbn [mbind list_bind]. rewrite app_nil_r. apply Permutation_app_comm.
Qed.

Definition node_of (r : ocr_record) : option node :=
  if or_level r =? 1 then Some (NPage (or_page r))
  else if or_level r =? 2 then Some (NBlock (or_page r) (or_block r))
  else if or_level r =? 3 then Some (NPar (or_page r) (or_block r) (or_par r))
  else if or_level r =? 4 then Some (NLine (or_page r) (or_block r) (or_par r) (or_line r) (or_top r) (or_height r))
  else if or_level r =? 5 then Some (NWord (or_page r) (or_block r) (or_par r) (or_line r) (or_word r) (or_left r) (or_width r) (or_text r))
  else None.
Lemma stands_for_spec r n : stands_for r n ↔ node_of r = Some n.
Proof.
  unfold node_of. split.
  - destruct n; cbn [stands_for]; intros H; destruct_and?; subst; repeat match goal with H : or_level r = _ |- _ => rewrite H; clear H end; done.
  - destruct (Z.eqb_spec (or_level r) 1); [by intros [= <-]|].
    destruct (Z.eqb_spec (or_level r) 2); [by intros [= <-]|].
    destruct (Z.eqb_spec (or_level r) 3); [by intros [= <-]|].
    destruct (Z.eqb_spec (or_level r) 4); [by intros [= <-]|].
    destruct (Z.eqb_spec (or_level r) 5); [by intros [= <-]|done].
Qed.

Lemma numbered_nil {A} (num : A → Z) : numbered num [].
Proof. intros i x H. by rewrite lookup_nil in H. Qed.

Lemma feed_adds doc r doc' : well_numbered doc → feed_record doc r = Ok doc' →
  ∃ n, stands_for r n ∧ well_numbered doc' ∧ nodes doc' ≡ₚ n :: nodes doc.
Proof.
  rewrite !wn_alt. intros [Hn HP] H. unfold feed_record in H.
  assert (∀ n, node_of r = Some n → numbered pg_num doc' ∧ (∀ p, p ∈ doc' → wn_page p) ∧ doc' ≫= page_nodes ≡ₚ n :: (doc ≫= page_nodes) →
    ∃ n, stands_for r n ∧ well_numbered doc' ∧ nodes doc' ≡ₚ n :: nodes doc) as Hend.
  { intros n Hr (H1 & H2 & H3). exists n. split_and!; [by apply stands_for_spec|by apply wn_alt|done]. }
  assert (∀ b, bk_paragraphs b = [] → wn_block b) as Hnil.
  { intros b Hb. split; rewrite Hb; [apply numbered_nil|]. intros q Hq. by apply elem_of_nil in Hq. }
  unfold node_of in Hend. destruct (or_level r =? 1); [|destruct (or_level r =? 2); [|destruct (or_level r =? 3); [|destruct (or_level r =? 4); [|destruct (or_level r =? 5); [|done]]]]].
  - eapply Hend; [done|]. apply (push_one pg_num wn_page page_nodes _ _ _ _ _ Hn HP H); [done| |done].
    apply wn_page_alt. split; [apply numbered_nil|]. intros b Hb. by apply elem_of_nil in Hb.
  - eapply Hend; [done|]. apply (update_one pg_num wn_page page_nodes page_nodes _ _ _ _ _ Hn HP H).
    intros p p' Hp Hpn (bs & Hbs & [= <-])%rbind_ok. apply wn_page_alt in Hp as [Hb1 Hb2].
    eapply (push_one bk_num wn_block (block_nodes (pg_num p))) in Hbs as (H1 & H2 & H3); [|done|done|done|by apply Hnil|done].
    split; [done|]. split; [by apply wn_page_alt|]. unfold page_nodes. cbn [pg_num pg_blocks]. rewrite H3, Hpn. apply perm_swap.
  - eapply Hend; [done|]. apply (update_one pg_num wn_page page_nodes page_nodes _ _ _ _ _ Hn HP H).
    intros p p' Hp Hpn (bs & Hbs & [= <-])%rbind_ok. apply wn_page_alt in Hp as [Hb1 Hb2].
    eapply (update_one bk_num wn_block (block_nodes (pg_num p)) (block_nodes (pg_num p))) in Hbs as (H1 & H2 & H3); [|done|done|].
    + split; [done|]. split; [by apply wn_page_alt|]. unfold page_nodes. cbn [pg_num pg_blocks]. rewrite H3, Hpn. apply perm_swap.
    + intros b b' [Hq1 Hq2] Hbn (qs & Hqs & [= <-])%rbind_ok.
      eapply (push_one pa_num wn_par (par_nodes (pg_num p) (bk_num b))) in Hqs as (G1 & G2 & G3); [|done|done|done| |done].
      * split; [done|]. split; [done|]. unfold block_nodes. cbn [bk_num bk_paragraphs]. rewrite G3, Hbn, Hpn. apply perm_swap.
      * split; [apply numbered_nil|]. intros l Hl. by apply elem_of_nil in Hl.
  - eapply Hend; [done|]. apply (update_one pg_num wn_page page_nodes page_nodes _ _ _ _ _ Hn HP H).
    intros p p' Hp Hpn (bs & Hbs & [= <-])%rbind_ok. apply wn_page_alt in Hp as [Hb1 Hb2].
    eapply (update_one bk_num wn_block (block_nodes (pg_num p)) (block_nodes (pg_num p))) in Hbs as (H1 & H2 & H3); [|done|done|].
    + split; [done|]. split; [by apply wn_page_alt|]. unfold page_nodes. cbn [pg_num pg_blocks]. rewrite H3, Hpn. apply perm_swap.
    + intros b b' [Hq1 Hq2] Hbn (qs & Hqs & [= <-])%rbind_ok.
      eapply (update_one pa_num wn_par (par_nodes (pg_num p) (bk_num b)) (par_nodes (pg_num p) (bk_num b))) in Hqs as (G1 & G2 & G3); [|done|done|].
      * split; [done|]. split; [done|]. unfold block_nodes. cbn [bk_num bk_paragraphs]. rewrite G3, Hbn, Hpn. apply perm_swap.
      * intros q q' [Hl1 Hl2] Hqn (ls & Hls & [= <-])%rbind_ok.
        eapply (push_one ln_num (λ l, numbered wd_num (ln_words l)) (line_nodes (pg_num p) (bk_num b) (pa_num q))) in Hls as (F1 & F2 & F3);
          [|done|done|done|apply numbered_nil|done].
        split; [done|]. split; [done|]. unfold par_nodes. cbn [pa_num pa_lines]. rewrite F3, Hqn, Hbn, Hpn. apply perm_swap.
  - eapply Hend; [done|]. apply (update_one pg_num wn_page page_nodes page_nodes _ _ _ _ _ Hn HP H).
    intros p p' Hp Hpn (bs & Hbs & [= <-])%rbind_ok. apply wn_page_alt in Hp as [Hb1 Hb2].
    eapply (update_one bk_num wn_block (block_nodes (pg_num p)) (block_nodes (pg_num p))) in Hbs as (H1 & H2 & H3); [|done|done|].
    + split; [done|]. split; [by apply wn_page_alt|]. unfold page_nodes. cbn [pg_num pg_blocks]. rewrite H3, Hpn. apply perm_swap.
    + intros b b' [Hq1 Hq2] Hbn (qs & Hqs & [= <-])%rbind_ok.
      eapply (update_one pa_num wn_par (par_nodes (pg_num p) (bk_num b)) (par_nodes (pg_num p) (bk_num b))) in Hqs as (G1 & G2 & G3); [|done|done|].
      * split; [done|]. split; [done|]. unfold block_nodes. cbn [bk_num bk_paragraphs]. rewrite G3, Hbn, Hpn. apply perm_swap.
      * intros q q' [Hl1 Hl2] Hqn (ls & Hls & [= <-])%rbind_ok.
        eapply (update_one ln_num (λ l, numbered wd_num (ln_words l)) (line_nodes (pg_num p) (bk_num b) (pa_num q))
          (line_nodes (pg_num p) (bk_num b) (pa_num q))) in Hls as (F1 & F2 & F3); [|done|done|].
        -- split; [done|]. split; [done|]. unfold par_nodes. cbn [pa_num pa_lines]. rewrite F3, Hqn, Hbn, Hpn. apply perm_swap.
        -- intros l l' Hw Hln (ws & Hws & [= <-])%rbind_ok.
           eapply (push_one wd_num (λ _, True) (word_nodes (pg_num p) (bk_num b) (pa_num q) (ln_num l))) in Hws as (E1 & _ & E3);
             [|done|done|done|done|done].
           split; [done|]. split; [done|]. unfold line_nodes. cbn [ln_num ln_words ln_top ln_height]. rewrite E3. cbn [word_of wd_num wd_left wd_width wd_text].
           rewrite Hln, Hqn, Hbn, Hpn. apply perm_swap.
Qed.

(** * Which records are accepted *)
Section level.
  Context {A : Type} (num : A → Z) (sub : A → list (list Z)).
  Definition places (v : list A) : list (list Z) := v ≫= λ x, [num x] :: ((num x ::.) <$> sub x).
  Implicit Types v : list A.

  Lemma count_below_app pre a b : count_below pre (a ++ b) = (count_below pre a + count_below pre b)%nat.
  Proof. unfold count_below. by rewrite filter_app, app_length. Qed.
  Lemma count_below_zero pre ps : (∀ p, p ∈ ps → ¬ below pre p) → count_below pre ps = 0%nat.
  Proof.
    intros H. unfold count_below. destruct (filter (below pre) ps) as [|p l] eqn:E; [done|].
    assert (p ∈ filter (below pre) ps) as [Hp Hin]%elem_of_list_filter by (rewrite E; constructor). by destruct (H p).
  Qed.
  Lemma count_below_cons_nil pre ps : count_below pre ([] :: ps) = count_below pre ps.
  Proof. unfold count_below. rewrite filter_cons, decide_False; [done|]. intros [k Hk]. by destruct pre. Qed.
  Lemma below_cons x k pre p : below (k :: pre) (x :: p) ↔ x = k ∧ below pre p.
  Proof.
    split.
    - intros [j Hj]. injection Hj as -> ->. split; [done|by exists j].
    - intros [-> [j ->]]. by exists j.
  Qed.
  Lemma count_below_map k pre ps : count_below (k :: pre) ((k ::.) <$> ps) = count_below pre ps.
  Proof.
    unfold count_below. induction ps as [|p ps IH]; [done|]. rewrite fmap_cons, !filter_cons.
    destruct (decide (below pre p)) as [H|H].
    - rewrite decide_True by (by apply below_cons). cbn [length]. by rewrite IH.
    - rewrite decide_False by (by intros [_ ?]%below_cons). apply IH.
  Qed.
  Lemma count_below_map_ne j k pre ps : j ≠ k → count_below (k :: pre) ((j ::.) <$> ps) = 0%nat.
  Proof. intros Hne. apply count_below_zero. intros p (q & -> & _)%elem_of_list_fmap. by intros [? _]%below_cons. Qed.
  Lemma count_below_nil_map j ps : [] ∉ ps → count_below [] ((j ::.) <$> ps) = 0%nat.
  Proof. intros Hn. apply count_below_zero. intros p (q & -> & Hq)%elem_of_list_fmap [i Hi]. injection Hi as -> ->. done. Qed.
  Lemma count_below_one pre k : count_below pre [[k]] = if decide (pre = []) then 1%nat else 0%nat.
  Proof.
    destruct (decide (pre = [])) as [-> |Hp].
    - unfold count_below. rewrite filter_cons, decide_True; [done|by exists k].
    - apply count_below_zero. intros p ->%elem_of_list_singleton [i Hi]. destruct pre as [|? [|??]]; done.
  Qed.

  Lemma count_top v : (∀ x, x ∈ v → [] ∉ sub x) → count_below [] (places v) = length v.
  Proof.
    induction v as [|x v IH]; intros H; [done|]. unfold places. rewrite bind_cons, count_below_app.
    change ([num x] :: ((num x ::.) <$> sub x)) with ([[num x]] ++ ((num x ::.) <$> sub x)).
    rewrite count_below_app, count_below_one, decide_True, count_below_nil_map by (try done; apply H; constructor).
    fold (places v). rewrite IH; [done|]. intros y Hy. apply H. by constructor.
  Qed.
  Lemma count_other v k pre : (∀ x, x ∈ v → num x ≠ k) → count_below (k :: pre) (places v) = 0%nat.
  Proof.
    intros H. apply count_below_zero. intros p (x & Hp & Hx)%elem_of_list_bind Hb.
    apply elem_of_cons in Hp as [-> |(q & -> & _)%elem_of_list_fmap]; apply below_cons in Hb as [Hk _]; by apply (H x).
  Qed.
  Lemma count_in a x b pre : numbered num (a ++ x :: b) →
    count_below (num x :: pre) (places (a ++ x :: b)) = count_below pre (sub x).
  Proof.
    intros Hn. pose proof (numbered_at _ _ _ _ Hn) as Hx. unfold places. rewrite bind_app, bind_cons, !count_below_app. fold (places a). fold (places b).
    rewrite (count_other a), (count_other b).
    - change ([num x] :: ((num x ::.) <$> sub x)) with ([[num x]] ++ ((num x ::.) <$> sub x)).
      rewrite count_below_app, count_below_one, decide_False, count_below_map by done. lia.
    - intros y [i Hy]%elem_of_list_lookup Hk. assert (num y = Z.of_nat (length a + S i) + 1); [|lia].
      apply Hn. rewrite lookup_app_r by lia. by replace (length a + S i - length a)%nat with (S i) by lia.
    - intros y [i Hy]%elem_of_list_lookup Hk. pose proof (lookup_lt_Some _ _ _ Hy). assert (num y = Z.of_nat i + 1); [|lia].
      apply Hn. by apply lookup_app_l_Some.
  Qed.
  Lemma in_places v k pre : k :: pre ∈ places v ↔ ∃ x, x ∈ v ∧ num x = k ∧ (pre = [] ∨ pre ∈ sub x).
  Proof.
    unfold places. rewrite elem_of_list_bind. split.
    - intros (x & Hp & Hx). exists x. apply elem_of_cons in Hp as [[= -> ->]|(q & [= -> ->] & Hq)%elem_of_list_fmap]; eauto.
    - intros (x & Hx & <- & [-> |Hp]); exists x; (split; [|done]); [constructor|]. apply elem_of_list_further, elem_of_list_fmap. eauto.
  Qed.
  Lemma places_nil v : [] ∉ places v.
  Proof. intros (x & Hp & _)%elem_of_list_bind. apply elem_of_cons in Hp as [?|(q & ? & _)%elem_of_list_fmap]; done. Qed.

  Lemma fits_one v k : (∀ x, x ∈ v → [] ∉ sub x) → fits (places v) [k] ↔ k = Z.of_nat (length v) + 1.
  Proof.
    intros H. split.
    - intros (pre & k' & Hp & _ & Hk). destruct pre as [|? [|??]]; [|done|done]. injection Hp as <-. by rewrite count_top in Hk.
    - intros ->. exists [], (Z.of_nat (length v) + 1). split_and!; [done|by left|]. by rewrite count_top.
  Qed.
  Lemma fits_more v k rest : numbered num v → rest ≠ [] → fits (places v) (k :: rest) ↔
    ∃ a x b, v = a ++ x :: b ∧ k = Z.of_nat (length a) + 1 ∧ fits (sub x) rest.
  Proof.
    intros Hn Hr. split.
    - intros (pre & j & Hp & Hpre & Hj). destruct pre as [|k' pre]; [by injection Hp as -> ->|]. injection Hp as <- ->.
      destruct Hpre as [?|Hpre]; [done|]. apply in_places in Hpre as (x & Hx & <- & Hpre).
      apply elem_of_list_split in Hx as (a & b & ->). exists a, x, b. split; [done|]. split; [by apply (numbered_at _ _ _ _ Hn)|].
      exists pre, j. rewrite count_in in Hj by done. done.
    - intros (a & x & b & -> & -> & pre & j & -> & Hpre & Hj). rewrite <- (numbered_at _ _ _ _ Hn).
      exists (num x :: pre), j. split; [done|]. split; [|by rewrite count_in].
      right. apply in_places. exists x. split; [|done]. set_solver.
  Qed.

  (** The places in reading order fit. *)
  Definition ord (ps : list (list Z)) : Prop := ∀ b p a, ps = b ++ p :: a → fits b p.
  Lemma ord_places v : numbered num v → (∀ x, x ∈ v → [] ∉ sub x ∧ ord (sub x)) → ord (places v).
  Proof.
    induction v as [|x v IH] using rev_ind; intros Hn H b p a Hp; [by destruct b|].
    assert (numbered num v) as Hv. { intros i y Hy. apply Hn. by apply lookup_app_l_Some. }
    assert (∀ y, y ∈ v → [] ∉ sub y ∧ ord (sub y)) as H'. { intros y Hy. apply H. set_solver. }
    specialize (IH Hv H'). assert (num x = Z.of_nat (length v) + 1) as Hx by (by apply (numbered_at _ v x [])).
    destruct (H x) as [Hx1 Hx2]; [set_solver|].
    unfold places in Hp. rewrite bind_app, bind_cons in Hp. cbn [mbind list_bind] in Hp. rewrite app_nil_r in Hp. fold (places v) in Hp.
    apply app_eq_inv in Hp as [(k & Hk1 & Hk2)|(k & Hk1 & Hk2)].
    - destruct k as [|q k]; [|injection Hk2 as -> Hk2; by apply (IH b q k)].
      rewrite app_nil_r in Hk1. subst b. cbn [app] in Hk2. injection Hk2 as -> _. apply fits_one; [|done]. intros y Hy. by apply H'.
    - subst b. destruct k as [|q k].
      { injection Hk2 as <- _. rewrite app_nil_r. apply fits_one; [|done]. intros y Hy. by apply H'. }
      injection Hk2 as <- Hk2.
      assert (∃ b' p' a', sub x = b' ++ p' :: a' ∧ k = (num x ::.) <$> b' ∧ p = num x :: p') as (b' & p' & a' & Hs & -> & ->).
      { apply fmap_app_inv in Hk2 as (b' & c & -> & Hc & ->). symmetry in Hc. apply fmap_cons_inv in Hc as (p' & a' & -> & -> & ->). eauto 10. }
      destruct (Hx2 b' p' a' Hs) as (pre & j & -> & Hpre & Hj). exists (num x :: pre), j. split; [done|]. split.
      + right. apply elem_of_app. right. destruct Hpre as [-> |Hpre]; [constructor|]. apply elem_of_list_further, elem_of_list_fmap. eauto.
      + rewrite count_below_app, count_other.
        * change ([num x] :: ((num x ::.) <$> b')) with ([[num x]] ++ ((num x ::.) <$> b')).
          rewrite count_below_app, count_below_one, decide_False, count_below_map by done. lia.
        * intros y [i Hy]%elem_of_list_lookup Hk. pose proof (lookup_lt_Some _ _ _ Hy). rewrite (Hv i y Hy) in Hk. lia.
  Qed.
End level.

Definition line_places (l : line) : list (list Z) := places wd_num (λ _, []) (ln_words l).
Definition par_places (q : paragraph) : list (list Z) := places ln_num line_places (pa_lines q).
Definition block_places (b : block) : list (list Z) := places pa_num par_places (bk_paragraphs b).
Definition page_places (p : page) : list (list Z) := places bk_num block_places (pg_blocks p).
Definition doc_places (doc : document) : list (list Z) := places pg_num page_places doc.

Lemma fmap_bind {A B C} (f : B → C) (g : A → list B) l : f <$> (l ≫= g) = l ≫= λ x, f <$> g x.
Proof. induction l as [|x l IH]; [done|]. by rewrite !bind_cons, fmap_app, IH. Qed.
Lemma bind_ext_in {A B} (f g : A → list B) l : (∀ x, f x = g x) → l ≫= f = l ≫= g.
Proof. intros H. induction l as [|x l IH]; [done|]. by rewrite !bind_cons, H, IH. Qed.
Lemma places_fmap {A} (num : A → Z) (sub : A → list (list Z)) (pre : list Z) v :
  (pre ++.) <$> places num sub v = v ≫= λ x, (pre ++ [num x]) :: (((pre ++ [num x]) ++.) <$> sub x).
Proof.
  unfold places. rewrite fmap_bind. apply bind_ext_in. intros x. rewrite fmap_cons, <- list_fmap_compose. f_equal.
  apply list_fmap_ext. intros i p _. cbn. by rewrite <- app_assoc.
Qed.
Lemma line_nodes_places p b q l : path_of <$> line_nodes p b q l = [p; b; q; ln_num l] :: (([p; b; q; ln_num l] ++.) <$> line_places l).
Proof.
  unfold line_nodes, line_places. rewrite fmap_cons, places_fmap, fmap_bind. reflexivity.
Qed.
Lemma par_nodes_places p b q : path_of <$> par_nodes p b q = [p; b; pa_num q] :: (([p; b; pa_num q] ++.) <$> par_places q).
Proof.
  unfold par_nodes, par_places. rewrite fmap_cons, places_fmap, fmap_bind. f_equal. apply bind_ext_in. intros l. by rewrite line_nodes_places.
Qed.
Lemma block_nodes_places p b : path_of <$> block_nodes p b = [p; bk_num b] :: (([p; bk_num b] ++.) <$> block_places b).
Proof.
  unfold block_nodes, block_places. rewrite fmap_cons, places_fmap, fmap_bind. f_equal. apply bind_ext_in. intros l. by rewrite par_nodes_places.
Qed.
Lemma page_nodes_places p : path_of <$> page_nodes p = [pg_num p] :: (([pg_num p] ++.) <$> page_places p).
Proof.
  unfold page_nodes, page_places. rewrite fmap_cons, places_fmap, fmap_bind. f_equal. apply bind_ext_in. intros l. by rewrite block_nodes_places.
Qed.
Lemma nodes_places doc : path_of <$> nodes doc = doc_places doc.
Proof. unfold nodes, doc_places, places. rewrite fmap_bind. apply bind_ext_in. intros p. apply page_nodes_places. Qed.

(** Whether a record is accepted. *)
Lemma get_checked_iff {T} (v : list T) n f : (∃ v', get_checked_mut v n f = Ok v') ↔
  ∃ a x b, v = a ++ x :: b ∧ n = Z.of_nat (length a) + 1 ∧ ∃ x', f x = Ok x'.
Proof.
  split.
  - intros (v' & (a & x & x' & b & -> & -> & H & ->)%get_checked_ok). eauto 10.
  - intros (a & x & b & -> & -> & x' & H). eexists. apply get_checked_ok. eauto 10.
Qed.
Lemma push_checked_iff {T} (v : list T) n x : (∃ v', push_checked v n x = Ok v') ↔ n = Z.of_nat (length v) + 1.
Proof. setoid_rewrite push_checked_ok. split; [by intros (? & ? & _)|eauto]. Qed.
Lemma wrap_iff {T U} (r : result T) (f : T → U) : (∃ y, (let! x := r in Ok (f x)) = Ok y) ↔ ∃ x, r = Ok x.
Proof.
  split.
  - intros (y & (x & Hx & _)%rbind_ok). eauto.
  - intros (x & ->). eauto.
Qed.
Lemma line_places_nil l : [] ∉ line_places l. Proof. apply places_nil. Qed.
Lemma par_places_nil l : [] ∉ par_places l. Proof. apply places_nil. Qed.
Lemma block_places_nil l : [] ∉ block_places l. Proof. apply places_nil. Qed.
Lemma page_places_nil l : [] ∉ page_places l. Proof. apply places_nil. Qed.
Lemma exists_split_iff {A} (v : list A) n (P Q : A → Prop) : (∀ a x b, v = a ++ x :: b → P x ↔ Q x) →
  (∃ a x b, v = a ++ x :: b ∧ n = Z.of_nat (length a) + 1 ∧ P x) ↔ (∃ a x b, v = a ++ x :: b ∧ n = Z.of_nat (length a) + 1 ∧ Q x).
Proof. intros H. split; intros (a & x & b & Hv & Hn & HP); exists a, x, b; (split; [done|]; split; [done|]); by apply (H a x b). Qed.
Lemma feed_accepts doc r n : well_numbered doc → stands_for r n →
  (∃ doc', feed_record doc r = Ok doc') ↔ fits (path_of <$> nodes doc) (path_of n).
Proof.
  rewrite wn_alt, nodes_places. intros [Hn HP] Hr. unfold feed_record, line_mut, paragraph_mut, block_mut, page_mut.
  destruct n; cbn [stands_for] in Hr; destruct_and?; subst; match goal with H : or_level r = _ |- _ => rewrite H; clear H end;
    cbn [Z.eqb Pos.eqb path_of]; unfold doc_places, document in *.
  - rewrite push_checked_iff. symmetry. apply fits_one. intros ??. apply page_places_nil.
  - rewrite get_checked_iff, fits_more by done. apply exists_split_iff. intros a1 p b1 ->. rewrite wrap_iff, push_checked_iff.
    symmetry. apply fits_one. intros ??. apply block_places_nil.
  - rewrite get_checked_iff, fits_more by done. apply exists_split_iff. intros a1 p b1 ->.
    assert (wn_page p) as [Hb1 Hb2]%wn_page_alt by (apply HP; set_solver).
    rewrite wrap_iff, get_checked_iff. unfold page_places. rewrite fits_more by done. apply exists_split_iff. intros a2 b b2 Hb.
    rewrite wrap_iff, push_checked_iff. symmetry. apply fits_one. intros ??. apply par_places_nil.
  - rewrite get_checked_iff, fits_more by done. apply exists_split_iff. intros a1 p b1 ->.
    assert (wn_page p) as [Hb1 Hb2]%wn_page_alt by (apply HP; set_solver).
    rewrite wrap_iff, get_checked_iff. unfold page_places. rewrite fits_more by done. apply exists_split_iff. intros a2 b b2 Hb.
    assert (wn_block b) as [Hq1 Hq2] by (apply Hb2; rewrite Hb; set_solver).
    rewrite wrap_iff, get_checked_iff. unfold block_places. rewrite fits_more by done. apply exists_split_iff. intros a3 q b3 Hq.
    rewrite wrap_iff, push_checked_iff. symmetry. apply fits_one. intros ??. apply line_places_nil.
  - rewrite get_checked_iff, fits_more by done. apply exists_split_iff. intros a1 p b1 ->.
    assert (wn_page p) as [Hb1 Hb2]%wn_page_alt by (apply HP; set_solver).
    rewrite wrap_iff, get_checked_iff. unfold page_places. rewrite fits_more by done. apply exists_split_iff. intros a2 b b2 Hb.
    assert (wn_block b) as [Hq1 Hq2] by (apply Hb2; rewrite Hb; set_solver).
    rewrite wrap_iff, get_checked_iff. unfold block_places. rewrite fits_more by done. apply exists_split_iff. intros a3 q b3 Hq.
    assert (wn_par q) as [Hl1 Hl2] by (apply Hq2; rewrite Hq; set_solver).
    rewrite wrap_iff, get_checked_iff. unfold par_places. rewrite fits_more by done. apply exists_split_iff. intros a4 l b4 Hl.
    rewrite wrap_iff, push_checked_iff. symmetry. apply fits_one. intros ??. apply not_elem_of_nil.
Qed.

(** * The document is determined by its parts *)
Definition numbered_from {A} (num : A → Z) (s : Z) (l : list A) : Prop := ∀ i x, l !! i = Some x → num x = Z.of_nat i + s.
Lemma numbered_from_cons {A} (num : A → Z) s x l : numbered_from num s (x :: l) → num x = s ∧ numbered_from num (s + 1) l.
Proof.
  intros H. split; [by apply (H 0%nat)|]. intros i y Hy. rewrite (H (S i) y Hy). lia.
Qed.
Lemma filter_bind_none {A} (P : node → Prop) `{Pdec : !∀ n, Decision (P n)} (g : A → list node) v :
  (∀ x n, x ∈ v → n ∈ g x → ¬ P n) → filter P (v ≫= g) = [].
Proof.
  intros H. destruct (filter P (v ≫= g)) as [|n l] eqn:E; [done|].
  assert (n ∈ filter P (v ≫= g)) as [Hn (x & Hx & Hin)%elem_of_list_bind]%elem_of_list_filter by (rewrite E; constructor). by destruct (H x n).
Qed.
Lemma filter_all' {A} (P : A → Prop) `{Pdec : !∀ n, Decision (P n)} (l : list A) : (∀ n, n ∈ l → P n) → filter P l = l.
Proof.
  induction l as [|x l IH]; intros H; [done|]. rewrite filter_cons, decide_True by (apply H; constructor). f_equal. apply IH.
  intros y Hy. apply H. by constructor.
Qed.
Lemma filter_none' {A} (P : A → Prop) `{Pdec : !∀ n, Decision (P n)} (l : list A) : (∀ n, n ∈ l → ¬ P n) → filter P l = [].
Proof.
  induction l as [|x l IH]; intros H; [done|]. rewrite filter_cons, decide_False by (apply H; constructor). apply IH.
  intros y Hy. apply H. by constructor.
Qed.
Lemma by_number {A} (num : A → Z) (g : A → list node) d s v1 v2 :
  numbered_from num s v1 → numbered_from num s v2 →
  (∀ x n, n ∈ g x → path_of n !! d = Some (num x)) → (∀ x, g x ≠ []) →
  v1 ≫= g ≡ₚ v2 ≫= g → Forall2 (λ x y, num x = num y ∧ g x ≡ₚ g y) v1 v2.
Proof.
  intros H1 H2 Hg Hne. revert s v2 H1 H2. induction v1 as [|x v1 IH]; intros s [|y v2] H1 H2 Hp.
  - constructor.
  - rewrite bind_cons in Hp. apply Permutation_nil_l in Hp. destruct (g y) eqn:E; [by apply Hne in E|done].
  - rewrite bind_cons in Hp. apply Permutation_nil_r in Hp. destruct (g x) eqn:E; [by apply Hne in E|done].
  - apply numbered_from_cons in H1 as [Hx H1]. apply numbered_from_cons in H2 as [Hy H2]. rewrite !bind_cons in Hp.
    assert (∀ v, numbered_from num (s + 1) v → ∀ z n, z ∈ v → n ∈ g z → path_of n !! d ≠ Some s) as Hoff.
    { intros v Hv z n [i Hz]%elem_of_list_lookup Hn. rewrite (Hg _ _ Hn). intros [= Hk]. rewrite (Hv i z Hz) in Hk. lia. }
    pose proof (filter_Permutation (λ n, path_of n !! d = Some s) _ _ Hp) as Hs.
    pose proof (filter_Permutation (λ n, path_of n !! d ≠ Some s) _ _ Hp) as Ho.
    rewrite !filter_app in Hs. rewrite !filter_app in Ho.
    rewrite (filter_bind_none (λ n, path_of n !! d = Some s) g v1), (filter_bind_none (λ n, path_of n !! d = Some s) g v2), !app_nil_r in Hs
      by (first [exact (Hoff v1 H1)|exact (Hoff v2 H2)]).
    rewrite !(filter_all' (λ n, path_of n !! d = Some s)) in Hs by (intros n Hn; rewrite (Hg _ _ Hn); congruence).
    rewrite !(filter_none' (λ n, path_of n !! d ≠ Some s) (g _)) in Ho by (intros n Hn; rewrite (Hg _ _ Hn), ?Hx, ?Hy; auto).
    cbn [app] in Ho. rewrite !filter_all' in Ho by (intros n (z & Hn & Hz)%elem_of_list_bind; first [exact (Hoff v1 H1 z n Hz Hn)|exact (Hoff v2 H2 z n Hz Hn)]).
    constructor; [split; [congruence|done]|]. by apply (IH (s + 1)).
Qed.
Lemma numbered_from_1 {A} (num : A → Z) l : numbered num l → numbered_from num 1 l.
Proof. done. Qed.
(** The part itself and what is below it. *)
Lemma by_depth d n1 n2 l1 l2 : length (path_of n1) = d → length (path_of n2) = d →
  (∀ n, n ∈ l1 → length (path_of n) ≠ d) → (∀ n, n ∈ l2 → length (path_of n) ≠ d) → n1 :: l1 ≡ₚ n2 :: l2 → n1 = n2 ∧ l1 ≡ₚ l2.
Proof.
  intros H1 H2 Hl1 Hl2 Hp.
  pose proof (filter_Permutation (λ n, length (path_of n) = d) _ _ Hp) as Hs.
  rewrite !filter_cons, !decide_True, !filter_none' in Hs by done.
  apply Permutation_singleton_inj in Hs as ->. split; [done|]. by apply Permutation_cons_inv in Hp.
Qed.
Lemma Forall2_eq' {A} (R : A → A → Prop) l k : Forall2 R l k → (∀ x y, x ∈ l → y ∈ k → R x y → x = y) → l = k.
Proof.
  induction 1 as [|x y l k Hxy H IH]; intros HR; [done|]. f_equal; [apply HR; [constructor|constructor|done]|].
  apply IH. intros x' y' Hx Hy. apply HR; by constructor.
Qed.

Lemma in_line p b q l n : n ∈ line_nodes p b q l → take 4 (path_of n) = [p; b; q; ln_num l].
Proof. unfold line_nodes. intros [-> |(w & ->%elem_of_list_singleton & _)%elem_of_list_bind]%elem_of_cons; done. Qed.
Lemma in_par p b q n : n ∈ par_nodes p b q → take 3 (path_of n) = [p; b; pa_num q].
Proof.
  unfold par_nodes. intros [-> |(l & Hn%in_line & _)%elem_of_list_bind]%elem_of_cons; [done|].
  change 3%nat with (3 `min` 4)%nat. by rewrite <- take_take, Hn.
Qed.
Lemma in_block p b n : n ∈ block_nodes p b → take 2 (path_of n) = [p; bk_num b].
Proof.
  unfold block_nodes. intros [-> |(l & Hn%in_par & _)%elem_of_list_bind]%elem_of_cons; [done|].
  change 2%nat with (2 `min` 3)%nat. by rewrite <- take_take, Hn.
Qed.
Lemma in_page p n : n ∈ page_nodes p → take 1 (path_of n) = [pg_num p].
Proof.
  unfold page_nodes. intros [-> |(l & Hn%in_block & _)%elem_of_list_bind]%elem_of_cons; [done|].
  change 1%nat with (1 `min` 2)%nat. by rewrite <- take_take, Hn.
Qed.
Lemma take_key d k n l : take d (path_of n) = l → l !! k = Some (default 0 (l !! k)) → (k < d)%nat → path_of n !! k = l !! k.
Proof. intros <- _ Hk. by rewrite lookup_take. Qed.
Lemma take_long d n l : take d (path_of n) = l → length l = d → length (path_of n) ≠ pred d ∨ d = 0%nat.
Proof.
  intros H1 H2. destruct d; [by right|]. left. cbn. intros H3. rewrite <- H1, take_length, H3 in H2. lia.
Qed.

Lemma line_unique p b q l1 l2 : numbered wd_num (ln_words l1) → numbered wd_num (ln_words l2) →
  line_nodes p b q l1 ≡ₚ line_nodes p b q l2 → l1 = l2.
Proof.
  intros H1 H2 Hp. apply (by_depth 4) in Hp as [Hh Hr]; [|done|done|by intros n (w & ->%elem_of_list_singleton & _)%elem_of_list_bind..].
  destruct l1 as [n1 t1 h1 ws1], l2 as [n2 t2 h2 ws2]. cbn [ln_num ln_top ln_height ln_words] in *. injection Hh as -> -> ->. f_equal.
  apply (by_number wd_num _ 4 1) in Hr; [|done|done|by intros w n ->%elem_of_list_singleton|done].
  apply (Forall2_eq' _ _ _ Hr). intros [] [] _ _ [Hn Hw%Permutation_singleton_inj]. by inversion Hw.
Qed.
Lemma par_unique p b q1 q2 : wn_par q1 → wn_par q2 → par_nodes p b q1 ≡ₚ par_nodes p b q2 → q1 = q2.
Proof.
  intros [H1 H1'] [H2 H2'] Hp. apply (by_depth 3) in Hp as [Hh Hr];
    [|done|done|by intros n (w & Hn%in_line & _)%elem_of_list_bind Hl; apply (f_equal length) in Hn; rewrite take_length, Hl in Hn..].
  destruct q1 as [n1 l1], q2 as [n2 l2]. cbn [pa_num pa_lines] in *. injection Hh as ->. f_equal.
  apply (by_number ln_num _ 3 1) in Hr; [|done|done| |done].
  - apply (Forall2_eq' _ _ _ Hr). intros x y Hx Hy [Hn Hw]. apply (line_unique p b n2); auto.
  - intros x n Hn%in_line. by rewrite <- (lookup_take _ 4), Hn by lia.
Qed.
Lemma block_unique p b1 b2 : wn_block b1 → wn_block b2 → block_nodes p b1 ≡ₚ block_nodes p b2 → b1 = b2.
Proof.
  intros [H1 H1'] [H2 H2'] Hp. apply (by_depth 2) in Hp as [Hh Hr];
    [|done|done|by intros n (w & Hn%in_par & _)%elem_of_list_bind Hl; apply (f_equal length) in Hn; rewrite take_length, Hl in Hn..].
  destruct b1 as [n1 l1], b2 as [n2 l2]. cbn [bk_num bk_paragraphs] in *. injection Hh as ->. f_equal.
  apply (by_number pa_num _ 2 1) in Hr; [|done|done| |done].
  - apply (Forall2_eq' _ _ _ Hr). intros x y Hx Hy [Hn Hw]. apply (par_unique p n2); auto.
  - intros x n Hn%in_par. by rewrite <- (lookup_take _ 3), Hn by lia.
Qed.
Lemma page_unique p1 p2 : wn_page p1 → wn_page p2 → page_nodes p1 ≡ₚ page_nodes p2 → p1 = p2.
Proof.
  rewrite !wn_page_alt. intros [H1 H1'] [H2 H2'] Hp. apply (by_depth 1) in Hp as [Hh Hr];
    [|done|done|by intros n (w & Hn%in_block & _)%elem_of_list_bind Hl; apply (f_equal length) in Hn; rewrite take_length, Hl in Hn..].
  destruct p1 as [n1 l1], p2 as [n2 l2]. cbn [pg_num pg_blocks] in *. injection Hh as ->. f_equal.
  apply (by_number bk_num _ 1 1) in Hr; [|done|done| |done].
  - apply (Forall2_eq' _ _ _ Hr). intros x y Hx Hy [Hn Hw]. apply (block_unique n2); auto.
  - intros x n Hn%in_block. by rewrite <- (lookup_take _ 2), Hn by lia.
Qed.
Lemma doc_unique d1 d2 : well_numbered d1 → well_numbered d2 → nodes d1 ≡ₚ nodes d2 → d1 = d2.
Proof.
  rewrite !wn_alt. intros [H1 H1'] [H2 H2'] Hr. apply (by_number pg_num _ 0 1) in Hr; [|done|done| |done].
  - apply (Forall2_eq' _ _ _ Hr). intros x y Hx Hy [Hn Hw]. apply page_unique; auto.
  - intros x n Hn%in_page. by rewrite <- (lookup_take _ 1), Hn by lia.
Qed.

(** * C64 *)
Lemma fits_perm ps ps' p : ps ≡ₚ ps' → fits ps p → fits ps' p.
Proof.
  intros Hp (pre & k & -> & Hpre & Hk). exists pre, k. split; [done|]. split.
  - destruct Hpre as [Hpre|Hpre]; [by left|right]. by rewrite <- Hp.
  - rewrite Hk. unfold count_below. by rewrite Hp.
Qed.
Lemma in_order_snoc ns n : in_order (ns ++ [n]) ↔ in_order ns ∧ fits (path_of <$> ns) (path_of n).
Proof.
  split.
  - intros H. split; [|by apply (H ns n [])]. intros b m a ->. apply (H b m (a ++ [n])). by rewrite <- app_assoc.
  - intros [H1 H2] b m a Hb. destruct a as [|a' a _] using rev_ind.
    + by apply app_inj_tail in Hb as [-> ->].
    + change (b ++ m :: a ++ [a']) with (b ++ (m :: a) ++ [a']) in Hb. rewrite app_assoc in Hb. apply app_inj_tail in Hb as [-> ->]. by apply (H1 b m a).
Qed.
Definition read_as (o : option ocr_record) (n : node) : Prop := ∃ r, o = Some r ∧ stands_for r n.
Lemma feed_records_ok doc rs doc' ns : well_numbered doc → nodes doc ≡ₚ ns → in_order ns → feed_records doc rs = Ok doc' →
  ∃ ns', Forall2 read_as rs ns' ∧ in_order (ns ++ ns') ∧ well_numbered doc' ∧ nodes doc' ≡ₚ ns ++ ns'.
Proof.
  revert doc ns. induction rs as [|[r|] rs IH]; intros doc ns Hw Hn Ho H; cbn [feed_records] in H; [|..|done].
  - injection H as <-. exists []. rewrite app_nil_r. split_and!; [constructor|done|done|done].
  - apply rbind_ok in H as (d & Hd & H). destruct (feed_adds doc r d Hw Hd) as (n & Hr & Hwd & Hnd).
    assert (fits (path_of <$> ns) (path_of n)) as Hfit.
    { apply (fits_perm (path_of <$> nodes doc)); [by rewrite Hn|]. apply (feed_accepts doc r n); eauto. }
    destruct (IH d (ns ++ [n])) as (ns' & H1 & H2 & H3 & H4); [done| |by apply in_order_snoc|done|].
    + rewrite Hnd, Hn. apply Permutation_cons_append.
    + exists (n :: ns'). rewrite <- app_assoc in H2, H4. split; [|done]. constructor; [by exists r|done].
Qed.
Lemma feed_records_accepts doc rs ns ns' : well_numbered doc → nodes doc ≡ₚ ns → in_order (ns ++ ns') → Forall2 read_as rs ns' →
  ∃ doc', feed_records doc rs = Ok doc'.
Proof.
  intros Hw Hn Ho HF. revert doc ns Hw Hn Ho. induction HF as [|o n rs ns' (r & -> & Hr) HF IH]; intros doc ns Hw Hn Ho; cbn [feed_records]; [by eexists|].
  assert (∃ d, feed_record doc r = Ok d) as [d Hd].
  { apply (feed_accepts doc r n); [done|done|]. apply (fits_perm (path_of <$> ns)); [by rewrite Hn|]. by apply (Ho ns n ns'). }
  rewrite Hd. cbn [rbind]. destruct (feed_adds doc r d Hw Hd) as (n' & Hr' & Hwd & Hnd).
  assert (n' = n) as -> by (apply stands_for_spec in Hr, Hr'; congruence).
  apply (IH d (ns ++ [n])); [done| |by rewrite <- app_assoc]. rewrite Hnd, Hn. apply Permutation_cons_append.
Qed.
Lemma wn_nil : well_numbered [].
Proof. apply wn_alt. split; [apply numbered_nil|]. intros p Hp. by apply elem_of_nil in Hp. Qed.
Lemma c64 rs doc : from_tsv rs = Ok doc ↔
  ∃ ns, Forall2 (λ o n, ∃ r, o = Some r ∧ stands_for r n) rs ns ∧ in_order ns ∧ well_numbered doc ∧ nodes doc ≡ₚ ns.
Proof.
  unfold from_tsv. split.
  - intros H. apply (feed_records_ok [] rs doc []) in H as (ns & H); [|apply wn_nil|done|by intros [|??]]. by exists ns.
  - intros (ns & HF & Ho & Hw & Hn). destruct (feed_records_accepts [] rs [] ns wn_nil) as [d Hd]; [done|done|done|].
    pose proof (feed_records_ok [] rs d [] wn_nil) as (ns' & HF' & Ho' & Hw' & Hn'); [done|by intros [|??]|done|].
    rewrite Hd. f_equal. apply doc_unique; [done|done|]. rewrite Hn, Hn'. cbn [app].
    enough (ns' = ns) as -> by done. clear -HF HF'. revert ns' HF'. induction HF as [|o n rs ns (r & -> & Hr) HF IH]; intros ns' HF'.
    + by apply Forall2_nil_inv_l in HF'.
    + apply Forall2_cons_inv_l in HF' as (n' & ns0 & (r' & [= <-] & Hr') & HF' & ->). f_equal; [|by apply IH].
      apply stands_for_spec in Hr, Hr'. congruence.
Qed.
Lemma c64_no_panic rs : from_tsv rs ≠ Panic.
Proof.
  assert (∀ T (v : list T) n f, (∀ x, f x ≠ Panic) → get_checked_mut v n f ≠ Panic) as Hg.
  { intros T v n f Hf. unfold get_checked_mut, num_to_idx. destruct (n <? 1); [done|]. cbn [rbind]. destruct (v !! _) as [x|]; [|done].
    specialize (Hf x). by destruct (f x). }
  assert (∀ T (v : list T) n x, push_checked v n x ≠ Panic) as Hp.
  { intros T v n x. unfold push_checked, num_to_idx. destruct (n <? 1); [done|]. cbn [rbind]. by case_bool_decide. }
  assert (∀ T U (r : result T) (f : T → U), r ≠ Panic → (let! x := r in Ok (f x)) ≠ Panic) as Hb.
  { intros T U [] f H; done. }
  assert (∀ doc r, feed_record doc r ≠ Panic) as Hf.
  { intros doc r. unfold feed_record, line_mut, paragraph_mut, block_mut, page_mut.
    repeat (match goal with |- (if ?b then _ else _) ≠ _ => destruct b end); [..|done];
    repeat first [apply Hp|apply Hg; intros ?|apply Hb]. }
  unfold from_tsv. generalize (@nil page : document). induction rs as [|[r|] rs IH]; intros doc; [done| |done]. cbn [feed_records].
  specialize (Hf doc r). destruct (feed_record doc r); [apply IH|done|done].
Qed.

(** Reading order. *)
Lemma ord_nodes doc : well_numbered doc → in_order (nodes doc).
Proof.
  intros [Hn HP]%wn_alt. assert (ord (doc_places doc)) as H.
  { apply ord_places; [done|]. intros p [Hb1 Hb2]%HP%wn_page_alt. split; [apply page_places_nil|].
    apply ord_places; [done|]. intros b [Hq1 Hq2]%Hb2. split; [apply block_places_nil|].
    apply ord_places; [done|]. intros q [Hl1 Hl2]%Hq2. split; [apply par_places_nil|].
    apply ord_places; [done|]. intros l Hl%Hl2. split; [apply line_places_nil|].
    apply ord_places; [done|]. intros w _. split; [apply not_elem_of_nil|]. by intros [|??]. }
  intros b n a Hb. apply (H _ _ (path_of <$> a)). rewrite <- nodes_places, Hb. by rewrite fmap_app.
Qed.
Lemma c64_reading_order doc rs : well_numbered doc → Forall2 stands_for rs (nodes doc) → from_tsv (Some <$> rs) = Ok doc.
Proof.
  intros Hw HF. apply c64. exists (nodes doc). split; [|split; [by apply ord_nodes|done]].
  apply Forall2_fmap_l. eapply Forall2_impl; [exact HF|]. intros r n Hr. by exists r.
Qed.

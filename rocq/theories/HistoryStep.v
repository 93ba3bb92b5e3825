(** Where every posting of a history is, by induction over the merges. *)
From Verif Require Import Base Types CommentModel MergeModel SpecBase BaseProofs MergeSpec MergeClaims
  MergeProofs MergePending MergeApply MergeBuild MergeClosed MergeLemmas MergePlaces MergeLaws MergeLaws2 MergeLaws3 MergeReplay
  PropsMergeProofs MergeEdit HistoryClaims History.
From Coq Require Import Lia.
Local Open Scope nat_scope.

(** * Places, more exactly *)
Lemma locs_cover l : ∀ c i, c ≤ i < c + length (news_from l) → i ∈ locs c l.
Proof.
  induction l as [|[p v] l IH]; intros c i Hi; unfold news_from in Hi; csimpl in Hi; [cbn in Hi; lia|].
  destruct v; cbn [locs].
  - right. by apply IH.
  - csimpl in Hi. destruct (decide (i = c)) as [->|]; [left|right]. apply IH. unfold news_from. lia.
  - right. by apply IH.
  - right. by apply IH.
Qed.
Lemma new_posts_length j tps : ∀ n, length (new_posts j n tps) = length (news_from (tps ≫= todo_of j)).
Proof.
  induction tps as [|tp tps IH]; intros n; [done|]. cbn [new_posts]. rewrite bind_cons, app_length, IH.
  unfold new_of. rewrite fmap_length. unfold news_from. rewrite omap_app, app_length. done.
Qed.
(** The transaction a posting goes to. *)
Lemma places_target j tps : ∀ n c a tp t ls, tps !! a = Some tp → places j n c tps !! a = Some (t, ls) →
  t = target j (n + length (new_trns j (take a tps))) tp.
Proof.
  induction tps as [|tp0 tps IH]; intros n c a tp t ls Ha Hp; [done|].
  destruct a as [|a]; cbn in Ha, Hp.
  - simplify_eq. unfold new_trns. cbn. by rewrite Nat.add_0_r.
  - apply IH with (tp := tp) in Hp as ->; [|done]. f_equal. unfold new_trns. cbn [take].
    destruct (fresh j tp0) eqn:E.
    + rewrite filter_cons_True by by rewrite E. rewrite !fmap_length. cbn [length]. lia.
    + rewrite filter_cons_False by by rewrite E. done.
Qed.
Lemma new_trns_take j tps a a' tp : tps !! a = Some tp → fresh j tp = true → a < a' →
  length (new_trns j (take a tps)) < length (new_trns j (take a' tps)).
Proof.
  intros Ha Hf Hlt. unfold new_trns. rewrite !fmap_length.
  rewrite <- (take_drop a (take a' tps)), take_take, Nat.min_l by lia.
  rewrite filter_app, app_length. rewrite (drop_S _ tp a); [|by rewrite lookup_take].
  rewrite filter_cons_True by by rewrite Hf. cbn [length]. lia.
Qed.
Lemma new_trns_at j tps a tp : tps !! a = Some tp → fresh j tp = true →
  new_trns j tps !! length (new_trns j (take a tps)) = Some (tp_trn tp).
Proof.
  intros Ha Hf. unfold new_trns. rewrite list_lookup_fmap, fmap_length.
  rewrite <- (take_drop a tps) at 2. rewrite filter_app, lookup_app_r by done.
  rewrite Nat.sub_diag, (drop_S _ _ _ Ha), filter_cons_True by by rewrite Hf. done.
Qed.
Lemma new_trns_from j tps n h : new_trns j tps !! n = Some h →
  ∃ a tp, tps !! a = Some tp ∧ fresh j tp = true ∧ tp_trn tp = h ∧ n = length (new_trns j (take a tps)).
Proof.
  revert n. induction tps as [|tp tps IH]; intros n Hn; [done|]. unfold new_trns in Hn.
  destruct (fresh j tp) eqn:E.
  - rewrite filter_cons_True in Hn by by rewrite E. cbn [fmap list_fmap] in Hn. destruct n as [|n].
    + cbn in Hn. exists 0, tp. split_and!; [done|done|congruence|done].
    + destruct (IH n Hn) as (a & tp' & Ha & Hf & Hh & ->). exists (S a), tp'. split_and!; [done..|].
      unfold new_trns. cbn [take]. rewrite filter_cons_True by by rewrite E. done.
  - rewrite filter_cons_False in Hn by by rewrite E. destruct (IH n Hn) as (a & tp' & Ha & Hf & Hh & ->).
    exists (S a), tp'. split_and!; [done..|]. unfold new_trns. cbn [take].
    rewrite filter_cons_False by by rewrite E. done.
Qed.

Section step.
  Context (j : journal) (s : list transaction_postings).
  Context (Hwf : journal_wf j) (Hv : valid_set j s).
  Local Notation j' := (spec_merge j s).

  Lemma set_places : ∃ (loc : nat → nat → nat) (tr : nat → nat),
    (∀ a b tp p, s !! a = Some tp → left_out j tp = false → tp_posts tp !! b = Some p → placed j s tp p (tr a) (loc a b)) ∧
    (∀ a b a' b' tp tp' p p', s !! a = Some tp → left_out j tp = false → tp_posts tp !! b = Some p →
       s !! a' = Some tp' → left_out j tp' = false → tp_posts tp' !! b' = Some p' → loc a b = loc a' b' → a = a' ∧ b = b') ∧
    (∀ i, length (j_posts j) ≤ i < length (j_posts j') → ∃ a b tp p, s !! a = Some tp ∧ left_out j tp = false ∧
       tp_posts tp !! b = Some p ∧ loc a b = i) ∧
    (∀ a tp, s !! a = Some tp → left_out j tp = false →
       tr a = target j (length (j_trns j) + length (new_trns j (take a s))) tp).
  Proof using Hwf Hv.
    set (pl := the_places j s).
    exists (λ a b, default 0 (pl !! a ≫= λ '(_, ls), ls !! b)), (λ a, default 0 (fst <$> pl !! a)).
    assert (∀ a tp, s !! a = Some tp → ∃ t ls, pl !! a = Some (t, ls)) as Hpl.
    { intros a tp Ha. assert (a < length pl) as Hlt.
      { unfold pl, the_places. rewrite places_length. by eapply lookup_lt_Some. }
      apply lookup_lt_is_Some in Hlt as [[t ls] Epl]. eauto. }
    assert (∀ a b tp p, s !! a = Some tp → left_out j tp = false → tp_posts tp !! b = Some p →
      ∃ t ls i, pl !! a = Some (t, ls) ∧ ls !! b = Some i ∧ placed j s tp p t i) as Hg.
    { intros a b tp p Ha El Hp. destruct (Hpl a tp Ha) as (t & ls & Epl).
      destruct (place_of j s Hwf Hv a tp t ls Ha El Epl) as [Hlen H].
      assert (b < length ls) as Hlt by (rewrite Hlen; by eapply lookup_lt_Some).
      apply lookup_lt_is_Some in Hlt as [i Ei]. eauto 8. }
    split_and!.
    - intros a b tp p Ha El Hp. destruct (Hg a b tp p Ha El Hp) as (t & ls & i & -> & E & ?). simpl. by rewrite E.
    - intros a b a' b' tp tp' p p' Ha El Hp Ha' El' Hp' E.
      destruct (Hg a b tp p Ha El Hp) as (t & ls & i & E1 & E2 & _).
      destruct (Hg a' b' tp' p' Ha' El' Hp') as (t' & ls' & i' & E1' & E2' & _).
      rewrite E1, E1' in E. simpl in E. rewrite E2, E2' in E. simpl in E. subst i'.
      pose proof (NoDup_places j s Hwf Hv) as Hnd. fold pl in Hnd.
      assert (a = a') as <-.
      { apply (NoDup_bind_pos snd pl a a' (t, ls) (t', ls') i); try done; by eapply elem_of_list_lookup_2. }
      split; [done|]. assert (ls' = ls) as -> by congruence.
      pose proof (NoDup_bind_elem snd pl a (t, ls) Hnd E1) as Hn. by eapply NoDup_lookup.
    - intros i Hi. rewrite spec_merge_closed in Hi. cbn [j_posts] in Hi. rewrite app_length, imap_length, new_posts_length in Hi.
      assert (i ∈ pl ≫= snd) as Hin.
      { unfold pl, the_places. rewrite places_locs. by apply locs_cover. }
      apply elem_of_list_bind in Hin as ([t ls] & Hin & Hpin). cbn [snd] in Hin.
      apply elem_of_list_lookup in Hpin as [a Ea]. apply elem_of_list_lookup in Hin as [b Eb].
      assert (a < length s) as Hlt.
      { apply lookup_lt_Some in Ea. unfold pl, the_places in Ea. by rewrite places_length in Ea. }
      apply lookup_lt_is_Some in Hlt as [tp Ha].
      destruct (places_spec _ _ _ _ _ _ _ _ Ha Ea) as (Hlen & _ & _).
      assert (left_out j tp = false) as El.
      { destruct (left_out j tp) eqn:El; [|done]. unfold todo_of in Hlen. rewrite El in Hlen.
        destruct ls; [done|]. done. }
      rewrite todo_length in Hlen by done.
      assert (b < length (tp_posts tp)) as Hb by (rewrite <- Hlen; by eapply lookup_lt_Some).
      apply lookup_lt_is_Some in Hb as [p Hb]. exists a, b, tp, p. split_and!; [done..|]. rewrite Ea. cbn. by rewrite Eb.
    - intros a tp Ha El. destruct (Hpl a tp Ha) as (t & ls & Epl). rewrite Epl. cbn.
      exact (places_target _ _ _ _ _ _ _ _ Ha Epl).
  Qed.
  Lemma target_old tp n : left_out j tp = false → fresh j tp = false → target j n tp < length (j_trns j).
  Proof using Hwf.
    intros El Ef. rewrite (fresh_dest_trns j tp El) in Ef. unfold target.
    destruct (dest_trns j tp) as [|t ts] eqn:E; [done|].
    assert (t ∈ dest_trns j tp) as Ht by (rewrite E; left). unfold dest_trns in Ht.
    apply elem_of_list_bind in Ht as (k & Hk & _). destruct (j_posts j !! k) as [y|] eqn:Ey; simpl in Hk; [|by apply elem_of_nil in Hk].
    apply elem_of_list_singleton in Hk. subst t. eapply jw_parent; [done|]. by eapply elem_of_list_lookup_2.
  Qed.
  Lemma target_new tp n : left_out j tp = false → fresh j tp = true → target j n tp = n.
  Proof.
    intros El Ef. rewrite (fresh_dest_trns j tp El) in Ef. unfold target. by destruct (dest_trns j tp).
  Qed.
  Lemma fresh_kept tp : fresh j tp = true → left_out j tp = false.
  Proof. unfold fresh. by destruct (left_out j tp). Qed.
  Lemma kept_nonempty tp : left_out j tp = false → tp_posts tp ≠ [].
  Proof. unfold left_out. by destruct (tp_posts tp). Qed.
  Lemma old_posts i x : j_posts j !! i = Some x →
    j_posts j' !! i = Some (JP (jp_trn x) (jp_date x) (foldl merge_posting (jp_post x) (merged_into j s i))).
  Proof.
    intros Hx. rewrite spec_merge_closed. cbn [j_posts]. rewrite lookup_app_l.
    2:{ rewrite imap_length. by eapply lookup_lt_Some. }
    by rewrite list_lookup_imap, Hx.
  Qed.
End step.

(** * The record of a history *)
Record recorded (j : journal) (sets : list (list transaction_postings)) (back : nat → nat → bool) (loc : nat → nat → nat → nat) : Prop := {
  rc_in : ∀ r x y tp p, kept_at sets back r x tp → tp_posts tp !! y = Some p → ∃ q, j_posts j !! loc r x y = Some q;
  rc_one : ∀ r x y tp p x' y' tp' p', kept_at sets back r x tp → tp_posts tp !! y = Some p →
    kept_at sets back r x' tp' → tp_posts tp' !! y' = Some p' → loc r x y = loc r x' y' → x = x' ∧ y = y';
  rc_trn : ∀ r x tp y p y' p' q q', kept_at sets back r x tp → tp_posts tp !! y = Some p → tp_posts tp !! y' = Some p' →
    j_posts j !! loc r x y = Some q → j_posts j !! loc r x y' = Some q' → jp_trn q = jp_trn q';
  rc_log : ∀ i q, j_posts j !! i = Some q → ∃ p rest, merged_at sets back loc i = p :: rest ∧ jp_post q = foldl merge_posting p rest;
  rc_head : ∀ t h, j_trns j !! t = Some h → ∃ r x tp, kept_at sets back r x tp ∧ tp_trn tp = h ∧ tp_posts tp ≠ [] ∧
    (∀ y p q, tp_posts tp !! y = Some p → j_posts j !! loc r x y = Some q → jp_trn q = t) ∧
    ∀ r' x' tp' y' p' q', r' ≤ r → kept_at sets back r' x' tp' → tp_posts tp' !! y' = Some p' →
      j_posts j !! loc r' x' y' = Some q' → jp_trn q' = t → r' = r ∧ x' = x;
}.
Lemma kept_lt sets back r x tp : kept_at sets back r x tp → r < length sets.
Proof. intros (s & Hs & _). by eapply lookup_lt_Some. Qed.
Lemma kept_snoc sets back back' s r x tp : (∀ r x, r < length sets → back' r x = back r x) →
  kept_at (sets ++ [s]) back' r x tp ↔ kept_at sets back r x tp ∨ (r = length sets ∧ s !! x = Some tp ∧ back' r x = false).
Proof.
  intros Hb. unfold kept_at. split.
  - intros (s0 & Hs & Hx & Hk). apply lookup_app_Some in Hs as [Hs|[Hlen Hs]].
    + left. exists s0. rewrite <- (Hb r x) by by eapply lookup_lt_Some. done.
    + right. apply list_lookup_singleton_Some in Hs as [? <-]. split_and!; [lia|done|done].
  - intros [(s0 & Hs & Hx & Hk)|(-> & Hx & Hk)].
    + exists s0. rewrite (Hb r x) by by eapply lookup_lt_Some. split_and!; [|done|done]. by apply lookup_app_l_Some.
    + exists s. split_and!; [|done|done]. by rewrite list_lookup_middle.
Qed.
Lemma mjoin_app {A} (l k : list (list A)) : mjoin (l ++ k) = mjoin l ++ mjoin k.
Proof. induction l as [|x l IH]; [done|]. change (x ++ mjoin (l ++ k) = (x ++ mjoin l) ++ mjoin k). by rewrite IH, <- app_assoc. Qed.
Lemma merged_at_snoc {A} `{EqDecision A} sets s back back' (loc loc' : nat → nat → nat → A) pl :
  (∀ r x, r < length sets → back' r x = back r x) → (∀ r x y, r < length sets → loc' r x y = loc r x y) →
  merged_at (sets ++ [s]) back' loc' pl = merged_at sets back loc pl ++
    (snd <$> filter (λ e, back' (length sets) e.1.1 = false ∧ loc' (length sets) e.1.1 e.1.2 = pl) (numbered s)).
Proof.
  intros Hb Hl. unfold merged_at. rewrite imap_app, mjoin_app. f_equal.
  - f_equal. apply imap_ext. intros r s0 Hr. apply lookup_lt_Some in Hr. f_equal. apply filter_ext'.
    intros e _. rewrite Hb, Hl by done. done.
  - cbn [imap]. rewrite Nat.add_0_r. cbn. by rewrite app_nil_r.
Qed.
Lemma filter_at (P : nat * nat * posting_internal → Prop) `{∀ e, Decision (P e)} s :
  (∀ e e', e ∈ numbered s → e' ∈ numbered s → P e → P e' → e = e') →
  ∀ e, e ∈ numbered s → P e → filter P (numbered s) = [e].
Proof.
  intros H1 e He HP. apply filter_one; [|done|done]. intros u v a b Hu Hv Pa Pb.
  assert (a = b) as -> by (apply H1; [by eapply elem_of_list_lookup_2..|done|done]).
  by eapply NoDup_lookup; [apply NoDup_numbered| |].
Qed.

Lemma recorded_step j sets back loc s : recorded j sets back loc → journal_wf j → valid_set j s →
  ∃ back' loc', recorded (spec_merge j s) (sets ++ [s]) back' loc' ∧ (∀ r x, r < length sets → back' r x = back r x) ∧
    ∀ x tp, s !! x = Some tp → back' (length sets) x = left_out j tp.
Proof.
  intros Hr Hwf Hv. destruct (set_places j s Hwf Hv) as (pl & tr & Hpl & Hinj & Hcov & Htr).
  set (n := length sets).
  set (back' := λ r x : nat, if decide (r = n) then default false (left_out j <$> s !! x) else back r x).
  set (loc' := λ r x y : nat, if decide (r = n) then pl x y else loc r x y).
  assert (∀ r x, r < n → back' r x = back r x) as Hb. { intros r x Hlt. unfold back'. rewrite decide_False by lia. done. }
  assert (∀ r x y, r < n → loc' r x y = loc r x y) as Hl. { intros r x y Hlt. unfold loc'. rewrite decide_False by lia. done. }
  assert (∀ x, back' n x = default false (left_out j <$> s !! x)) as Hbn. { intros x. unfold back'. by rewrite decide_True. }
  assert (∀ x y, loc' n x y = pl x y) as Hln. { intros x y. unfold loc'. by rewrite decide_True. }
  assert (∀ r x tp, kept_at (sets ++ [s]) back' r x tp ↔ (kept_at sets back r x tp ∧ r < n) ∨ (r = n ∧ s !! x = Some tp ∧ left_out j tp = false)) as Hk.
  { intros r x tp. rewrite (kept_snoc sets back back') by done. split.
    - intros [Hk|(-> & Hx & E)]; [left; split; [done|]; by eapply kept_lt|right]. fold n in E. rewrite Hbn, Hx in E. done.
    - intros [[Hk _]|(-> & Hx & E)]; [by left|right]. fold n. rewrite Hbn, Hx. done. }
  set (j' := spec_merge j s).
  assert (∀ i x, j_posts j !! i = Some x → ∃ q, j_posts j' !! i = Some q ∧ jp_trn q = jp_trn x) as Hold.
  { intros i x Hx. eexists. split; [by apply old_posts|]. done. }
  assert (∀ i x q, j_posts j !! i = Some x → j_posts j' !! i = Some q → jp_trn q = jp_trn x) as Hold'.
  { intros i x q Hx Hq. destruct (Hold i x Hx) as (q' & ? & ?). congruence. }
  assert (∀ a b tp p, s !! a = Some tp → left_out j tp = false → tp_posts tp !! b = Some p →
    ∃ q, j_posts j' !! pl a b = Some q ∧ jp_trn q = tr a) as Hat.
  { intros a b tp p Ha El Hp. destruct (Hpl a b tp p Ha El Hp) as [[(x & _ & _ & _ & _ & Hq)|(_ & _ & Hq)]]; by eexists. }
  assert (∀ a tp, s !! a = Some tp → left_out j tp = false → ∃ p, tp_posts tp !! 0 = Some p) as Hne.
  { intros a tp Ha El. apply kept_nonempty in El. destruct (tp_posts tp) as [|p ?]; [done|]. by exists p. }
  exists back', loc'. split; [|split; [done|]].
  2:{ intros x tp Hx. fold n. rewrite Hbn, Hx. done. }
  constructor.
  - intros r x y tp p [[Hkr Hlt]|(-> & Hx & El)]%Hk Hp.
    + rewrite Hl by done. destruct (rc_in _ _ _ _ Hr _ _ _ _ _ Hkr Hp) as [q Hq].
      destruct (Hold _ _ Hq) as (q' & ? & _). by exists q'.
    + rewrite Hln. destruct (Hat x y tp p Hx El Hp) as (q & ? & _). by exists q.
  - intros r x y tp p x' y' tp' p' [[Hkr Hlt]|(-> & Hx & El)]%Hk Hp [[Hkr' _]|(E & Hx' & El')]%Hk Hp'; try lia.
    + rewrite !Hl by done. by eapply rc_one.
    + apply kept_lt in Hkr'. fold n in Hkr'. lia.
    + rewrite !Hln. by eapply Hinj.
  - intros r x tp y p y' p' q q' [[Hkr Hlt]|(-> & Hx & El)]%Hk Hp Hp'.
    + rewrite !Hl by done. intros Hq Hq'.
      destruct (rc_in _ _ _ _ Hr _ _ _ _ _ Hkr Hp) as [q0 Hq0]. destruct (rc_in _ _ _ _ Hr _ _ _ _ _ Hkr Hp') as [q0' Hq0'].
      rewrite (Hold' _ _ _ Hq0 Hq), (Hold' _ _ _ Hq0' Hq'). exact (rc_trn _ _ _ _ Hr _ _ _ _ _ _ _ _ _ Hkr Hp Hp' Hq0 Hq0').
    + rewrite !Hln. intros Hq Hq'. destruct (Hat x y tp p Hx El Hp) as (q0 & ? & ?). destruct (Hat x y' tp p' Hx El Hp') as (q0' & ? & ?). congruence.
  - intros i q Hq.
    rewrite (merged_at_snoc sets s back back' loc loc') by done. fold n.
    assert (∀ e e', e ∈ numbered s → e' ∈ numbered s → back' n e.1.1 = false ∧ loc' n e.1.1 e.1.2 = i →
      back' n e'.1.1 = false ∧ loc' n e'.1.1 e'.1.2 = i → e = e') as H1.
    { intros [[x y] p] [[x' y'] p'] (tp & Hx & Hp)%elem_of_numbered (tp' & Hx' & Hp')%elem_of_numbered. cbn [fst snd].
      rewrite !Hbn, !Hln, Hx, Hx'. cbn. intros [El E] [El' E'].
      destruct (Hinj x y x' y' tp tp' p p') as [-> ->]; [done..|by rewrite E|]. congruence. }
    destruct (decide (i < length (j_posts j))) as [Hlt|Hge].
    + apply lookup_lt_is_Some in Hlt as [x Hx]. destruct (rc_log _ _ _ _ Hr i x Hx) as (p0 & rest & -> & Hp0).
      unfold j' in Hq. rewrite (old_posts j s i x Hx) in Hq. injection Hq as <-. cbn [jp_post].
      exists p0, (rest ++ merged_into j s i). rewrite foldl_app, <- Hp0. split; [|done]. cbn [app]. do 2 f_equal.
      destruct (merged_into j s i) as [|p l] eqn:Em.
      * rewrite filter_none; [done|]. intros [[a b] p] (tp & Ha & Hp)%elem_of_numbered. cbn [fst snd].
        rewrite Hbn, Hln, Ha. cbn. intros [El E].
        destruct (Hpl a b tp p Ha El Hp) as [[(x0 & _ & _ & _ & Em' & _)|(Hge & _)]].
        -- rewrite E in Em'. rewrite Em in Em'. done.
        -- rewrite E in Hge. apply lookup_lt_Some in Hx. lia.
      * assert (p ∈ merged_into j s i) as (tp & Hin & El & Hp & Ev)%elem_of_merged_into by (rewrite Em; left).
        apply elem_of_list_lookup in Hin as [a Ha]. apply elem_of_list_lookup in Hp as [b Hp].
        assert (pl a b = i) as Hi.
        { destruct (Hpl a b tp p Ha El Hp) as [[(x0 & _ & E & _)|(_ & E & _)]]; congruence. }
        assert (merged_into j s i = [p]) as Em'.
        { destruct (Hpl a b tp p Ha El Hp) as [[(x0 & _ & _ & _ & E & _)|(_ & E & _)]]; congruence. }
        rewrite (filter_at _ s H1 (a, b, p)).
        -- rewrite Em in Em'. by rewrite Em'.
        -- apply elem_of_numbered. eauto.
        -- cbn [fst snd]. rewrite Hbn, Hln, Ha. done.
    + assert (merged_at sets back loc i = []) as ->.
      { unfold merged_at. apply elem_of_nil_inv. intros p Hp. apply elem_of_list_join in Hp as (l & Hp & Hl').
        apply elem_of_lookup_imap in Hl' as (r & s0 & -> & Hs0). apply elem_of_list_fmap in Hp as (e & -> & Hp).
        apply elem_of_list_filter in Hp as [[Eb El] He]. destruct e as [[x y] p]. cbn [fst snd] in *.
        apply elem_of_numbered in He as (tp & Htp & Hp).
        destruct (rc_in _ _ _ _ Hr r x y tp p) as [q' Hq']; [by exists s0|done|]. rewrite El in Hq'. apply lookup_lt_Some in Hq'. lia. }
      destruct (Hcov i) as (a & b & tp & p & Ha & El & Hp & Hi). { apply lookup_lt_Some in Hq. unfold j' in Hq. lia. }
      exists p, []. rewrite (filter_at _ s H1 (a, b, p)).
      2:{ apply elem_of_numbered. eauto. } 2:{ cbn [fst snd]. rewrite Hbn, Hln, Ha. done. }
      split; [done|]. cbn [foldl].
      destruct (Hpl a b tp p Ha El Hp) as [[(x0 & Hx0 & _)|(_ & _ & Hq')]].
      * rewrite Hi in Hx0. apply lookup_lt_Some in Hx0. lia.
      * rewrite Hi in Hq'. fold j' in Hq'. rewrite Hq in Hq'. injection Hq' as ->. done.
  - intros t h Ht. unfold j' in Ht. rewrite spec_merge_closed in Ht. cbn [j_trns] in Ht.
    apply lookup_app_Some in Ht as [Ht|[Hge Ht]].
    + destruct (rc_head _ _ _ _ Hr t h Ht) as (r & x & tp & Hkr & Hh & Hn & Hin & Hfirst).
      assert (r < n) as Hrn by (by eapply kept_lt).
      exists r, x, tp. split_and!; [apply Hk; by left|done|done| |].
      * intros y p q Hp Hq. rewrite Hl in Hq by done. destruct (rc_in _ _ _ _ Hr _ _ _ _ _ Hkr Hp) as [q0 Hq0].
        rewrite (Hold' _ _ _ Hq0 Hq). by eapply Hin.
      * intros r' x' tp' y' p' q' Hle [[Hkr' Hlt']|(-> & _)]%Hk Hp' Hq' Et; [|lia].
        rewrite Hl in Hq' by done. destruct (rc_in _ _ _ _ Hr _ _ _ _ _ Hkr' Hp') as [q0 Hq0].
        rewrite (Hold' _ _ _ Hq0 Hq') in Et. by eapply Hfirst.
    + destruct (new_trns_from _ _ _ _ Ht) as (a & tp & Ha & Hf & Hh & En). pose proof (fresh_kept _ _ Hf) as El.
      assert (tr a = t) as Hta.
      { rewrite (Htr a tp Ha El), (target_new j _ _ El Hf). lia. }
      exists n, a, tp. split_and!; [apply Hk; by right|done|by apply (kept_nonempty j)| |].
      * intros y p q Hp Hq. rewrite Hln in Hq. destruct (Hat a y tp p Ha El Hp) as (q0 & ? & ?). congruence.
      * intros r' x' tp' y' p' q' Hle [[Hkr' Hlt']|(-> & Ha' & El')]%Hk Hp' Hq' Et.
        -- exfalso. rewrite Hl in Hq' by done. destruct (rc_in _ _ _ _ Hr _ _ _ _ _ Hkr' Hp') as [q0 Hq0].
           rewrite (Hold' _ _ _ Hq0 Hq') in Et. assert (jp_trn q0 < length (j_trns j)); [|lia].
           eapply jw_parent; [done|]. by eapply elem_of_list_lookup_2.
        -- split; [done|]. rewrite Hln in Hq'. destruct (Hat x' y' tp' p' Ha' El' Hp') as (q0 & Hq0 & Ht0).
           assert (q0 = q') as -> by congruence. rewrite Et in Ht0. rewrite (Htr x' tp' Ha' El') in Ht0.
           destruct (fresh j tp') eqn:Hf'.
           ++ rewrite (target_new j _ _ El' Hf') in Ht0.
              destruct (Nat.lt_trichotomy x' a) as [Hlt|[->|Hlt]]; [|done|].
              ** pose proof (new_trns_take j s x' a tp' Ha' Hf' Hlt). lia.
              ** pose proof (new_trns_take j s a x' tp Ha Hf Hlt). lia.
           ++ pose proof (target_old j Hwf tp' (length (j_trns j) + length (new_trns j (take x' s))) El' Hf'). lia.
Qed.

Lemma recorded_new back loc : recorded journal_new [] back loc.
Proof. constructor; intros; try (match goal with H : kept_at [] _ _ _ _ |- _ => destruct H as (? & ? & _) end); done. Qed.

Lemma imap_filter s (b : nat → bool) (f : transaction_postings → bool) : (∀ x tp, s !! x = Some tp → b x = f tp) →
  handed b s = filter (λ tp, f tp = true) s.
Proof.
  unfold handed. revert b. induction s as [|tp s IH]; intros b H; [done|]. cbn [imap].
  change (mjoin ((if b 0 then [tp] else []) :: ?l)) with ((if b 0 then [tp] else []) ++ mjoin l).
  rewrite (H 0 tp eq_refl). assert (mjoin (imap (λ x tp, if b (S x) then [tp] else []) s) = filter (λ tp, f tp = true) s) as E.
  { apply IH. intros x tp' Hx. by apply (H (S x)). }
  change ((if f tp then [tp] else []) ++ mjoin (imap (λ x tp, if b (S x) then [tp] else []) s) = filter (λ tp, f tp = true) (tp :: s)).
  rewrite E, filter_cons. destruct (f tp); [rewrite decide_True by done|rewrite decide_False by done]; done.
Qed.
Lemma run_recorded m runs m' : merge_run m runs m' → ∀ j sets back loc, represents m j → journal_wf j → recorded j sets back loc →
  ∃ j' back' loc', represents m' j' ∧ journal_wf j' ∧ recorded j' (sets ++ (run_set <$> runs)) back' loc' ∧
    (∀ r x, r < length sets → back' r x = back r x) ∧
    ∀ k rn, runs !! k = Some rn → Forall2 returned_unmerged (handed (back' (length sets + k)) (run_set rn)) (run_unmerged rn).
Proof.
  induction 1 as [m|ho s un m m1 runs m2 Hho Hm Hrun IH]; intros j sets back loc Hj Hwf Hrec.
  - exists j, back, loc. rewrite fmap_nil, app_nil_r. done.
  - destruct (merge_cases ho m j s m1 _ Hho Hj Hwf Hm) as [(Hv & Hwf1 & Hj1 & un' & [= <-] & Hun)|(_ & _ & e & ?)]; [|done].
    destruct (recorded_step j sets back loc s Hrec Hwf Hv) as (b1 & l1 & Hrec1 & Hb1 & Hn).
    destruct (IH _ _ _ _ Hj1 Hwf1 Hrec1) as (j' & b2 & l2 & Hj' & Hwf' & Hrec' & Hb2 & Hback).
    rewrite app_length in Hb2, Hback. cbn [length] in Hb2, Hback.
    exists j', b2, l2. split_and!; [done|done| | |].
    + rewrite fmap_cons. by rewrite <- app_assoc in Hrec'.
    + intros r x Hr. rewrite Hb2 by lia. by apply Hb1.
    + intros k rn Hk. destruct k as [|k].
      * cbn in Hk. injection Hk as <-. rewrite Nat.add_0_r. cbn [run_set run_unmerged fst snd].
        rewrite (imap_filter s _ (left_out j)). { eapply Forall2_impl; [exact Hun|]. intros a b. apply returned_as_unmerged. }
        intros x tp Hx. rewrite Hb2 by lia. by apply Hn.
      * cbn in Hk. specialize (Hback k rn Hk). by replace (length sets + S k) with (length sets + 1 + k) by lia.
Qed.

Lemma history_accounts runs m ho out : merge_run merger_new runs m → hash_order_ok ho → build ho m = Ok out →
  ∃ back loc, accounts_for (run_set <$> runs) back loc out ∧
    ∀ r rn, runs !! r = Some rn → Forall2 returned_unmerged (handed (back r) (run_set rn)) (run_unmerged rn).
Proof.
  intros Hrun Hho Hb. pose proof (recorded_new (λ _ _, false) (λ _ _ _, 0)) as H0.
  destruct (run_recorded _ _ _ Hrun journal_new [] _ _ rep_new (reachable_wf _ _ reach_new rep_new) H0)
    as (j & back & loc & Hj & Hwf & Hr & _ & Hback). cbn [app length] in Hr.
  destruct (built_place ho m j out Hho Hj Hwf Hb) as (f & Hf & Hfi).
  assert (∀ a tp b q, out !! a = Some tp → tp_posts tp !! b = Some q → ∃ i x, j_posts j !! i = Some x ∧ jp_post x = q ∧ f i = (a, b)) as Hsur.
  { intros a tp b q Ha Hq. pose proof (built_posts_perm ho m j out Hho Hj Hwf Hb) as Hp.
    assert (q ∈ all_posts out) as Hin. { apply elem_of_list_bind. exists tp. split; by eapply elem_of_list_lookup_2. }
    rewrite Hp in Hin. apply elem_of_list_fmap in Hin as (x & -> & Hx). pose proof (jw_mergeable _ Hwf x Hx) as Hm.
    apply elem_of_list_lookup in Hx as [i Hi].
    exists i, x. split_and!; [done..|]. destruct (Hf i x Hi) as (tp' & Ha' & Hq' & _).
    destruct (same_place out a b (f i).1 (f i).2 tp tp' (jp_post x) (jp_post x)) as [-> ->]; try done.
    - rewrite Hp. apply Hwf.
    - destruct (mergeable_fp _ Hm) as [fp Hfp]. by exists fp.
    - by destruct (f i). }
  exists back, (λ r x y, f (loc r x y)). split; [|exact Hback]. constructor.
  - intros r x y tp p Hk Hp. destruct (rc_in _ _ _ _ Hr _ _ _ _ _ Hk Hp) as [q Hq].
    destruct (Hf _ _ Hq) as (tp' & H1 & H2 & _). eauto.
  - intros r x y tp p x' y' tp' p' Hk Hp Hk' Hp' E.
    destruct (rc_in _ _ _ _ Hr _ _ _ _ _ Hk Hp) as [q Hq]. destruct (rc_in _ _ _ _ Hr _ _ _ _ _ Hk' Hp') as [q' Hq'].
    destruct (Hfi _ _ _ _ Hq Hq') as [_ Hi]. by eapply (rc_one _ _ _ _ Hr); try done; apply Hi.
  - intros r x tp y p y' p' Hk Hp Hp'.
    destruct (rc_in _ _ _ _ Hr _ _ _ _ _ Hk Hp) as [q Hq]. destruct (rc_in _ _ _ _ Hr _ _ _ _ _ Hk Hp') as [q' Hq'].
    destruct (Hfi _ _ _ _ Hq Hq') as [Hi _]. apply Hi. exact (rc_trn _ _ _ _ Hr _ _ _ _ _ _ _ _ _ Hk Hp Hp' Hq Hq').
  - intros a tp b q Ha Hq. destruct (Hsur a tp b q Ha Hq) as (i & x & Hi & <- & Efi).
    destruct (rc_log _ _ _ _ Hr i x Hi) as (p & rest & E & ->).
    replace (merged_at _ back (λ r x y, f (loc r x y)) (a, b)) with (p :: rest); [apply fold_composed|].
    rewrite <- E. unfold merged_at. f_equal. apply imap_ext. intros r s Hs. f_equal. apply filter_ext'.
    intros [[u v] p'] (tp' & Hu & Hv)%elem_of_numbered. cbn [fst snd]. split; intros [Hbk El].
    + split; [done|]. by rewrite El.
    + split; [done|]. destruct (rc_in _ _ _ _ Hr r u v tp' p') as [q' Hq']; [by exists s|done|].
      destruct (Hfi _ _ _ _ Hq' Hi) as [_ H]. apply H. by rewrite El.
  - intros a tp Ha. assert (∃ b q, tp_posts tp !! b = Some q) as (b & q & Hq).
    { destruct (tp_posts tp) as [|q ?] eqn:E; [|by exists 0, q]. exfalso.
      rewrite (build_inv ho m j out Hho Hj Hb) in Ha. apply elem_of_list_lookup_2 in Ha.
      rewrite (stable_sort_perm _ (journal_trns j)) in Ha.
      apply elem_of_lookup_imap in Ha as (t & h & -> & Ht). cbn [tp_posts] in E.
      apply lookup_lt_Some in Ht. destruct (jw_nonempty _ Hwf t Ht) as (x & Hx & Et).
      assert (jp_post x ∈ ([] : list posting_internal)) as H; [|by apply elem_of_nil in H]. rewrite <- E.
      apply elem_of_list_fmap. exists x. split; [done|]. by apply elem_of_list_filter. }
    destruct (Hsur a tp b q Ha Hq) as (i & x & Hi & <- & Efi). destruct (Hf i x Hi) as (tp' & Ha' & _ & Hh).
    rewrite Efi in Ha'. cbn [fst] in Ha'. assert (tp' = tp) as -> by congruence.
    destruct (rc_head _ _ _ _ Hr _ _ Hh) as (r & u & tp0 & Hk & Eh & Hn & Hin & Hfirst).
    exists r, u, tp0. split_and!; [done..| |].
    + intros y p Hp. destruct (rc_in _ _ _ _ Hr _ _ _ _ _ Hk Hp) as [q Hqy].
      destruct (Hfi _ _ _ _ Hqy Hi) as [H _]. rewrite Efi in H. cbn [fst] in H. apply H. by eapply Hin.
    + intros r' u' tp' y' p' Hle Hk' Hp' E. destruct (rc_in _ _ _ _ Hr _ _ _ _ _ Hk' Hp') as [q' Hq'].
      destruct (Hfi _ _ _ _ Hq' Hi) as [H _]. rewrite Efi in H. cbn [fst] in H.
      exact (Hfirst r' u' tp' y' p' q' Hle Hk' Hp' Hq' (proj2 H E)).
Qed.

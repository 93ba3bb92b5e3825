(** Proofs for C107: merging in several runs. *)
From Verif Require Import Base Types CommentModel MergeModel CmdModel SpecBase BaseProofs MergeSpec MergeClaims
  MergeProofs MergePending MergeApply MergeBuild MergeClosed MergeLemmas MergePlaces MergeLaws MergeLaws2 MergeLaws3 MergeLaws4 MergeLaws5 MergeReplay
  ResolveClaims MergeResolve Renum RenumInit CmdClaims CmdProofs CmdMerge CmdMerge2 CmdIdem HeaderClaims HeaderLaws CmdPlain WorkCmd ReRun PartsClaims.
From Coq Require Import Lia.
Local Open Scope nat_scope.

Definition linked (m m' : merger) : Prop :=
  ∃ σ π j j', represents m j ∧ represents m' j' ∧ journal_wf j ∧ journal_wf j' ∧ renum σ π j j'.
Lemma linked_refl m : reachable m → linked m m.
Proof.
  intros Hr. destruct (reachable_represents m Hr) as (j & Hj & Hwf). exists id, id, j, j. split_and!; try done.
  split; try done.
  - intros i. change (id i) with i. by destruct (j_posts j !! i) as [[]|].
  - intros ? ? ?. done.
  - intros ? ? ?. done.
  - intros t. by exists t.
  - intros t. by exists t.
Qed.
Lemma linked_call m m' ho ho' s : hash_order_ok ho → hash_order_ok ho' → linked m m' →
  linked (merge ho m s).1 (merge ho' m' s).1 ∧ outcome_alike (merge ho m s).2 (merge ho' m' s).2.
Proof.
  intros Hho Hho' (σ & π & j & j' & Hj & Hj' & Hwf & Hwf' & Hn).
  destruct (renum_call σ π m m' j j' ho ho' s) as [(j1 & j1' & ? & ? & ? & ? & ?) ?]; try done.
  split; [exists σ, π, j1, j1'; done|done].
Qed.
Lemma linked_build m m' ho ho' : hash_order_ok ho → hash_order_ok ho' → linked m m' → build ho m = build ho' m'.
Proof.
  intros Hho Hho' (σ & π & j & j' & Hj & Hj' & Hwf & Hwf' & Hn).
  rewrite (build_refines ho Hho m j Hj), (build_refines ho' Hho' m' j' Hj'). f_equal. symmetry. by eapply renum_build.
Qed.
Lemma linked_init m j ho ho1 out m' un : reachable m → represents m j → dates_agree j → hash_order_ok ho → hash_order_ok ho1 →
  build ho m = Ok out → merge ho1 merger_new out = (m', Ok un) → linked m m'.
Proof.
  intros Hr Hj Hd Hho Hho1 Hb Hm. pose proof (reachable_wf m j Hr Hj) as Hwf.
  destruct (merge_inv merger_new journal_new reach_new rep_new ho1 out m' un Hho1 Hm) as (_ & HwfJ & HJ & _).
  assert (∀ tp, tp ∈ out → tp_posts tp ≠ []) as Hne by (intros; by eapply (no_empties m j Hr Hj ho out)).
  unfold spec_merge in HJ, HwfJ. rewrite (fresh_merge out Hne) in HJ, HwfJ. cbn [j_trns j_posts journal_new app length] in HJ, HwfJ.
  rewrite (build_refines ho Hho m j Hj) in Hb. injection Hb as <-.
  destruct (renum_init j Hwf Hd) as (σ & π & Hn). exists σ, π, j. eexists. split_and!; [done|exact HJ|done|done|exact Hn].
Qed.

Lemma linked_calls h : ∀ h' m m', linked m m' → Forall (λ s, hash_order_ok s.1) h → Forall (λ s, hash_order_ok s.1) h' → h.*2 = h'.*2 →
  linked (after m h) (after m' h') ∧ Forall2 outcome_alike (outcomes m h) (outcomes m' h').
Proof.
  induction h as [|[ho s] h IH]; intros [|[ho' s'] h'] m m' Hl Hh Hh' E; try done; [split; [done|constructor]|].
  injection E as <- E. apply Forall_cons in Hh as [Ho Hh], Hh' as [Ho' Hh'].
  destruct (linked_call m m' ho ho' s Ho Ho' Hl) as [Hl' Ha].
  destruct (IH h' _ _ Hl' Hh Hh' E) as [H1 H2]. split; [done|]. cbn [outcomes]. by constructor.
Qed.
Lemma c107 m j ho ho1 out m' un : reachable m → represents m j → dates_agree j → hash_order_ok ho → hash_order_ok ho1 →
  build ho m = Ok out → merge ho1 merger_new out = (m', Ok un) →
  ∀ h h', Forall (λ s, hash_order_ok s.1) h → Forall (λ s, hash_order_ok s.1) h' → h.*2 = h'.*2 →
  Forall2 outcome_alike (outcomes m h) (outcomes m' h') ∧
  ∀ ho2 ho2', hash_order_ok ho2 → hash_order_ok ho2' → build ho2 (after m h) = build ho2' (after m' h').
Proof.
  intros Hr Hj Hd Hho Hho1 Hb Hm h h' Hh Hh' E.
  destruct (linked_calls h h' m m' (linked_init m j ho ho1 out m' un Hr Hj Hd Hho Hho1 Hb Hm) Hh Hh' E) as [H1 H2].
  split; [done|]. intros. by apply linked_build.
Qed.

(** ** Inputs with steady dates *)
Lemma steady_sub sets sets' : steady sets → (∀ s, s ∈ sets' → s ∈ sets) → steady sets'.
Proof. intros H Hs s s' tp tp' p q ? ? ? ? ? ? ?. eapply (H s s'); eauto. Qed.
Lemma steady_inv h : ∀ j, Forall (λ s, hash_order_ok s.1) h → steady h.*2 → represents (after merger_new h) j →
  dates_agree j ∧ ∀ x f, x ∈ j_posts j → has_fp (jp_post x) f →
    ∃ s tp p, s ∈ h.*2 ∧ tp ∈ s ∧ p ∈ tp_posts tp ∧ has_fp p f ∧ tp_date tp = jp_date x.
Proof.
  induction h as [|[ho s] h IH] using rev_ind; intros j' Hh Hst Hj'.
  - rewrite (represents_journal _ _ _ Hj' rep_new). split; intros x ? Hx; by apply elem_of_nil in Hx.
  - apply Forall_app in Hh as [Hh Hho]. apply (proj1 (Forall_singleton _ _)) in Hho. cbn [fst] in Hho.
    assert (after merger_new (h ++ [(ho, s)]) = (merge ho (after merger_new h) s).1) as Ea.
    { unfold after. by rewrite foldl_app. }
    rewrite Ea in Hj'. clear Ea. set (m := after merger_new h) in *.
    assert (reachable m) as Hr by (apply after_reachable; [constructor|done]).
    destruct (reachable_represents m Hr) as (j & Hj & Hwf). rewrite fmap_app in *.
    destruct (IH j Hh) as [Hd Hf]; [|done|]. { eapply steady_sub; [exact Hst|]. intros s' Hs'. apply elem_of_app. by left. }
    assert (∀ tp p i x, tp ∈ s → p ∈ tp_posts tp → lookup_posting j (tp_date tp) p = VMerge i → j_posts j !! i = Some x →
      jp_date x = tp_date tp) as Hsel.
    { intros tp p i x Htp Hp Hl Hx. apply selects_spec in Hl as [[(x' & Hx' & f & Hf1 & Hf2) _]|(_ & (x' & Hx' & Ed & _) & _)]; [assert (x' = x) as -> by congruence|by assert (x' = x) as -> by congruence].
      destruct (Hf x f) as (s0 & tp0 & p0 & Hs0 & Htp0 & Hp0 & Hf0 & <-); [by eapply elem_of_list_lookup_2|done|].
      eapply (Hst s0 s); try done; [apply elem_of_app; by left|apply elem_of_app; right; by left|]. by exists f. }
    destruct (merge ho m s) as [m1 r] eqn:E. cbn [fst] in Hj'.
    destruct (merge_cases ho m j s m1 r Hho Hj Hwf E) as [(Hv & Hwf1 & Hj1 & un & -> & _)|(_ & -> & _)].
    + split.
      * eapply (dates_kept m j Hr Hj ho s m1 un j' Hho E Hj' Hd).
        intros tp p i x h0 Htp Htm Hp Hs Hx Hh0. apply selects_spec in Hs. rewrite <- (Hsel tp p i x); try done.
        symmetry. eapply Hd; [by eapply elem_of_list_lookup_2|done].
      * rewrite (represents_journal _ _ _ Hj' Hj1). rewrite spec_merge_closed. cbn [j_posts]. intros y f Hy Hg.
        apply elem_of_app in Hy as [Hy|Hy].
        -- apply elem_of_lookup_imap in Hy as (k & x & -> & Hx). cbn [jp_post jp_date] in *.
           apply fold_merge_fp in Hg as [Hg|(p & Hp & Hg)].
           ++ destruct (Hf x f) as (s0 & tp0 & p0 & Hs0 & ?); [by eapply elem_of_list_lookup_2|done|].
              exists s0, tp0, p0. split; [apply elem_of_app; by left|done].
           ++ apply elem_of_merged_into in Hp as (tp & Htp & El & Hp & Hl). exists s, tp, p.
              split_and!; try done; [apply elem_of_app; right; by left|]. symmetry. exact (Hsel tp p k x Htp Hp Hl Hx).
        -- apply elem_of_new_posts in Hy as (tp & Htp & El & Hp & _ & Ed). exists s, tp, (jp_post y).
           split_and!; try done. apply elem_of_app; right; by left.
    + rewrite (represents_journal _ _ _ Hj' Hj). split; [done|]. intros x f Hx Hg.
      destruct (Hf x f Hx Hg) as (s0 & tp0 & p0 & Hs0 & ?). exists s0, tp0, p0. split; [apply elem_of_app; by left|done].
Qed.

Lemma c107_steady h0 ho ho1 out :
  Forall (λ s, hash_order_ok s.1) h0 → steady h0.*2 →
  hash_order_ok ho → hash_order_ok ho1 → build ho (after merger_new h0) = Ok out →
  ∃ m', merge ho1 merger_new out = (m', Ok []) ∧
  ∀ h h', Forall (λ s, hash_order_ok s.1) h → Forall (λ s, hash_order_ok s.1) h' → h.*2 = h'.*2 →
    Forall2 outcome_alike (outcomes (after merger_new h0) h) (outcomes m' h') ∧
    ∀ ho2 ho2', hash_order_ok ho2 → hash_order_ok ho2' →
      build ho2 (after (after merger_new h0) h) = build ho2' (after m' h').
Proof.
  intros Hh Hst Hho Hho1 Hb. assert (reachable (after merger_new h0)) as Hr by (apply after_reachable; [constructor|done]).
  destruct (reachable_represents _ Hr) as (j & Hj & Hwf). destruct (steady_inv h0 j Hh Hst Hj) as [Hd _].
  destruct (rebuild _ ho ho1 ho1 out Hr Hho Hho1 Hho1 Hb) as (m' & Hm & _). exists m'. split; [done|].
  exact (c107 _ j ho ho1 out m' [] Hr Hj Hd Hho Hho1 Hb Hm).
Qed.

(** ** Through the command *)
Lemma linked_merges ho ho' sets un m1 m : merges ho m sets un m1 → ∀ m', hash_order_ok ho → hash_order_ok ho' → linked m m' →
  ∃ un' m1', merges ho' m' sets un' m1' ∧ linked m1 m1' ∧ Forall2 equal_but_candidates un un'.
Proof.
  induction 1 as [m|m s m1 u sets un m2 Hm H IH]; intros m' Hho Hho' Hl; [exists [], m'; split_and!; [constructor|done|constructor]|].
  destruct (linked_call m m' ho ho' s Hho Hho' Hl) as [Hl' Ha]. rewrite Hm in Hl', Ha. cbn [fst snd] in Hl', Ha.
  destruct Ha as [(u1 & u' & [= <-] & Hu' & Hu)|(e & e' & [=] & _)].
  destruct (merge ho' m' s) as [m1' r'] eqn:E'. cbn [fst snd] in *. subst r'.
  destruct (IH m1' Hho Hho' Hl') as (un' & m2' & H1 & H2 & H3). exists (u' ++ un'), m2'. split_and!; [by econstructor|done|by apply Forall2_app].
Qed.
Lemma ebc_sym a b : equal_but_candidates a b → equal_but_candidates b a.
Proof.
  intros [E H]. split; [done|]. apply Forall2_flip. eapply Forall2_impl; [exact H|]. intros p q (H1 & H2 & H3 & H4). split_and!; try done.
  intros t Ht. by rewrite (H4 t Ht).
Qed.
Lemma linked_merges_back ho ho' sets un' m1' m' : merges ho' m' sets un' m1' → ∀ m, hash_order_ok ho → hash_order_ok ho' → linked m m' →
  ∃ un m1, merges ho m sets un m1 ∧ linked m1 m1' ∧ Forall2 equal_but_candidates un un'.
Proof.
  induction 1 as [m'|m' s m1' u' sets un' m2' Hm H IH]; intros m Hho Hho' Hl; [exists [], m; split_and!; [constructor|done|constructor]|].
  destruct (linked_call m m' ho ho' s Hho Hho' Hl) as [Hl' Ha]. rewrite Hm in Hl', Ha. cbn [fst snd] in Hl', Ha.
  destruct Ha as [(u & u1 & Hu' & [= <-] & Hu)|(e & e' & _ & [=])].
  destruct (merge ho m s) as [m1 r'] eqn:E'. cbn [fst snd] in *. subst r'.
  destruct (IH m1 Hho Hho' Hl') as (un & m2 & H1 & H2 & H3). exists (u ++ un), m2. split_and!; [by econstructor|done|by apply Forall2_app].
Qed.
Lemma merges_app ho sets sets' un un' m1 m2 m : merges ho m sets un m1 → merges ho m1 sets' un' m2 → merges ho m (sets ++ sets') (un ++ un') m2.
Proof. induction 1 as [m|m s ma u sets un mb Hm H IH]; intros H'; [done|]. simpl. rewrite <- app_assoc. econstructor; [exact Hm|auto]. Qed.
Lemma merges_split ho sets sets' : ∀ un m2 m, merges ho m (sets ++ sets') un m2 →
  ∃ un1 un2 m1, merges ho m sets un1 m1 ∧ merges ho m1 sets' un2 m2 ∧ un = un1 ++ un2.
Proof.
  induction sets as [|s sets IH]; intros un m2 m H; [exists [], un, m; split_and!; [constructor|done|done]|].
  simpl in H. inversion H as [|? ? ma u ? un0 ? Hm H']; subst. destruct (IH _ _ _ H') as (un1 & un2 & m1 & H1 & H2 & ->).
  exists (u ++ un1), un2, m1. split_and!; [by econstructor|done|by rewrite app_assoc].
Qed.
Lemma merges_cons_inv ho m s sets un m2 : merges ho m (s :: sets) un m2 →
  ∃ m1 u un', merge ho m s = (m1, Ok u) ∧ merges ho m1 sets un' m2 ∧ un = u ++ un'.
Proof. intros H. inversion H; subst. eauto 10. Qed.
Lemma merges_after ho sets un m m' : merges ho m sets un m' → m' = after m ((ho,.) <$> sets).
Proof. induction 1 as [|m s m1 u sets un m2 Hm H IH]; [done|]. rewrite fmap_cons. unfold after in *. simpl. by rewrite Hm. Qed.
Lemma journals_app E w a b ta tb : journals E w (Path <$> a) ta w → journals E w (Path <$> b) tb w → journals E w (Path <$> (a ++ b)) (ta ++ tb) w.
Proof.
  intros Ha Hb. remember (Path <$> a) as fs eqn:Hfs. revert a Hfs Hb. 
  assert (∀ fs ta w1, journals E w fs ta w1 → ∀ a, fs = Path <$> a → journals E w (Path <$> b) tb w → journals E w (Path <$> (a ++ b)) (ta ++ tb) w) as H.
  { clear. intros fs ta w1 H. induction H as [w|w f l wa fs tpss wb Hr Hs Ht H IH]; intros a Hfs Hb.
    - by destruct a.
    - destruct a as [|p a]; [done|]. rewrite fmap_cons in Hfs. injection Hfs as -> ->.
      inversion Hr; subst. simpl. eapply journals_cons; [done|done|done|]. by apply IH. }
  intros a Hfs Hb. by eapply H.
Qed.

Lemma snd_const {A B} (a : A) (l : list B) : ((a,.) <$> l).*2 = l.
Proof. induction l as [|b l IH]; [done|]. rewrite !fmap_cons. by f_equal. Qed.
Lemma c107_cmd E hoA hoB hoO a b umA umB umO o oB oO w ta tb esA esB esO rB rO :
  hash_order_ok hoA → hash_order_ok hoB → hash_order_ok hoO →
  journals E w (Path <$> a) ta w → journals E w (Path <$> b) tb w → steady ta →
  o ∉ b → (∀ p, p ∈ b → umA ≠ Some (Path p)) →
  (is_Some umA ↔ is_Some umO) → (is_Some umB ↔ is_Some umO) →
  f_read E (Path o) = false → (∀ f, writable E f) →
  (∀ un m out, merges hoA merger_new ta un m → build hoA m = Ok out →
     e_parse E (e_print E (into_ledger hoA out)) = Some (into_ledger hoA out) ∧ ∀ tp, tp ∈ out → comments_writable tp) →
  merge_cmd E hoA (Path <$> a) umA (Path o) w = (esA, Ok tt) →
  merge_cmd E hoB (Path o :: (Path <$> b)) umB (Path oB) (steps w esA) = (esB, rB) →
  merge_cmd E hoO (Path <$> (a ++ b)) umO (Path oO) w = (esO, rO) →
  (rB = Ok tt ↔ rO = Ok tt) ∧
  (rO = Ok tt → ∃ text, w_files (steps (steps w esA) esB) !! oB = Some text ∧ w_files (steps w esO) !! oO = Some text).
Proof.
  intros HhoA HhoB HhoO Hja Hjb Hst Ho Hum HsA HsB Hread Hwr Hrt HrunA HrunB HrunO.
  (* the first run *)
  assert (∃ unA mA, merges hoA merger_new ta unA mA ∧ (unA = [] ∨ is_Some umA)) as (unA & mA & HmA & HuA).
  { destruct (merges_dec hoA ta merger_new) as [(un & m & Hm)|Hn].
    - destruct (decide (un = [])) as [->|Hun]; [by eauto|]. destruct umA as [f|]; [by eauto 6|].
      destruct (c99_journals_failed E hoA _ None (Path o) w ta w esA (Ok tt) HhoA Hja) as [[e ?] _]; [|done|done].
      intros un' m' [Hm' [->|[? ?]]]; [|done]. destruct (merges_fun _ _ _ _ _ _ _ Hm Hm') as [-> _]. done.
    - destruct (c99_journals_failed E hoA _ umA (Path o) w ta w esA (Ok tt) HhoA Hja) as [[e ?] _]; [|done|done].
      intros un' m' [Hm' _]. by apply Hn in Hm'. }
  destruct (c99_journals E hoA _ umA (Path o) w ta w unA mA HhoA Hja HmA) as (es' & un' & out & Hrun' & Hb & _ & Hw & _ & Hsame);
    [done|by auto|by auto|].
  rewrite HrunA in Hrun'. injection Hrun' as <-. simpl in Hw, Hsame.
  specialize (Hw ltac:(by right; right)). set (w1 := steps w esA) in *.
  destruct (Hrt unA mA out HmA Hb) as [Hparse Hcw]. destruct (journals_sets _ _ _ _ _ Hja) as [Hcl Hsrc].
  assert (HrA : reachable mA) by exact (merges_reachable _ _ _ _ _ HhoA reach_new HmA).
  assert (Hclean : Forall clean_tp out).
  { destruct (merges_clean hoA merger_new ta unA mA journal_new HhoA reach_new rep_new) as (j & Hjr & Hc); [split; constructor|done|done|].
    exact (clean_built hoA mA j out HhoA HrA Hjr Hc Hb). }
  assert (Hsrc' : Forall (λ tp, source_tag tp = None) out).
  { exact (merges_headers (λ t, value_tags (ti_comment t) !! s2l "source-file" = None) hoA ta unA mA out HmA Hb Hsrc). }
  pose proof (from_into_ledger hoA out HhoA Hclean Hcw) as HL. set (L := into_ledger hoA out) in *.
  assert (Hj2 : journals E w1 (Path o :: (Path <$> b)) (out :: tb) w1).
  { rewrite <- HL. eapply journals_cons.
    - eapply reads_path; [done|exact Hw|exact Hparse].
    - apply ledger_supported.
    - intros t Ht. rewrite Forall_forall in Hsrc'. apply Hsrc'. rewrite <- HL. by apply elem_of_list_fmap_1.
    - eapply journals_paths; [exact Hjb|]. intros p Hp. apply Hsame; [by intros [= ->]|]. intros E'. by apply Hum in E'. }
  (* the journal read back *)
  destruct (reachable_represents mA HrA) as (jA & HjA & HwfA).
  assert (dates_agree jA) as HdA.
  { rewrite (merges_after _ _ _ _ _ HmA) in HjA.
    pose proof (snd_const hoA ta) as Esnd.
    destruct (steady_inv ((hoA,.) <$> ta) jA) as [? _]; [|by rewrite Esnd|done|done].
    apply Forall_fmap, Forall_forall. done. }
  destruct (rebuild mA hoA hoB hoB out HrA HhoA HhoB HhoB Hb) as (m0 & Hm0 & _).
  pose proof (linked_init mA jA hoA hoB out m0 [] HrA HjA HdA HhoA HhoB Hb Hm0) as Hlink.
  (* what is handed back decides in the same way *)
  assert (∀ u u', Forall2 equal_but_candidates u u' → (u = [] ↔ u' = [])) as Hnil.
  { intros u u' H. apply Forall2_length in H. destruct u, u'; done. }
  assert (Hiff : (∃ un m, merges hoB merger_new (out :: tb) un m ∧ (un = [] ∨ is_Some umB)) ↔
                 (∃ un m, merges hoO merger_new (ta ++ tb) un m ∧ (un = [] ∨ is_Some umO))).
  { split.
    - intros (un & m & Hm & Hu). apply merges_cons_inv in Hm as (mx & ux & unx & Hx & Hy & ->). rewrite Hm0 in Hx. injection Hx as <- <-.
      destruct (linked_merges_back hoA hoB tb unx m m0 Hy mA HhoA HhoB Hlink) as (un2 & m2 & Hm2 & _ & Hu2).
      pose proof (merges_app _ _ _ _ _ _ _ _ HmA Hm2) as Hm3.
      destruct (linked_merges hoA hoO _ _ _ _ Hm3 merger_new HhoA HhoO (linked_refl _ reach_new)) as (un3 & m3 & Hm4 & _ & Hu3).
      exists un3, m3. split; [done|]. destruct Hu as [Hu|Hu]; [|right; tauto]. simpl in Hu. subst unx.
      destruct HuA as [->|HuA]; [|right; tauto]. left. apply (Hnil _ _ Hu3). simpl. by apply (Hnil _ _ Hu2).
    - intros (un & m & Hm & Hu).
      destruct (linked_merges hoO hoA _ _ _ _ Hm merger_new HhoO HhoA (linked_refl _ reach_new)) as (un3 & m3 & Hm4 & _ & Hu3).
      apply merges_split in Hm4 as (un1 & un2 & mA' & HmA' & Hm2 & ->).
      destruct (merges_fun _ _ _ _ _ _ _ HmA HmA') as [<- <-].
      destruct (linked_merges hoA hoB _ _ _ _ Hm2 m0 HhoA HhoB Hlink) as (un4 & m4 & Hm5 & _ & Hu4).
      exists ([] ++ un4), m4. split; [by econstructor|]. destruct Hu as [->|Hu]; [|right; tauto]. left. simpl. apply (Hnil _ _ Hu4).
      apply Forall2_length in Hu3. rewrite app_length in Hu3. simpl in Hu3. destruct un2; [done|]. simpl in Hu3. lia. }
  assert (HB : rB = Ok tt ↔ ∃ un m, merges hoB merger_new (out :: tb) un m ∧ (un = [] ∨ is_Some umB)).
  { split.
    - intros ->. destruct (merges_dec hoB (out :: tb) merger_new) as [(un & m & Hm)|Hn].
      + destruct (decide (un = [])) as [->|Hun]; [by eauto|]. destruct umB as [f|]; [by eauto 6|].
        destruct (c99_journals_failed E hoB _ None (Path oB) w1 _ w1 esB (Ok tt) HhoB Hj2) as [[e ?] _]; [|done|done].
        intros un2 m' [Hm' [->|[? ?]]]; [|done]. destruct (merges_fun _ _ _ _ _ _ _ Hm Hm') as [-> _]. done.
      + destruct (c99_journals_failed E hoB _ umB (Path oB) w1 _ w1 esB (Ok tt) HhoB Hj2) as [[e ?] _]; [|done|done].
        intros un2 m' [Hm' _]. by apply Hn in Hm'.
    - intros (un & m & Hm & Hu). destruct (c99_journals E hoB _ umB (Path oB) w1 _ w1 un m HhoB Hj2 Hm) as (es2 & ? & ? & Hr & _);
        [done|by auto|by auto|]. rewrite HrunB in Hr. by injection Hr as _ ->. }
  pose proof (journals_app E w a b ta tb Hja Hjb) as Hjo.
  assert (HO : rO = Ok tt ↔ ∃ un m, merges hoO merger_new (ta ++ tb) un m ∧ (un = [] ∨ is_Some umO)).
  { split.
    - intros ->. destruct (merges_dec hoO (ta ++ tb) merger_new) as [(un & m & Hm)|Hn].
      + destruct (decide (un = [])) as [->|Hun]; [by eauto|]. destruct umO as [f|]; [by eauto 6|].
        destruct (c99_journals_failed E hoO _ None (Path oO) w _ w esO (Ok tt) HhoO Hjo) as [[e ?] _]; [|done|done].
        intros un2 m' [Hm' [->|[? ?]]]; [|done]. destruct (merges_fun _ _ _ _ _ _ _ Hm Hm') as [-> _]. done.
      + destruct (c99_journals_failed E hoO _ umO (Path oO) w _ w esO (Ok tt) HhoO Hjo) as [[e ?] _]; [|done|done].
        intros un2 m' [Hm' _]. by apply Hn in Hm'.
    - intros (un & m & Hm & Hu). destruct (c99_journals E hoO _ umO (Path oO) w _ w un m HhoO Hjo Hm) as (es2 & ? & ? & Hr & _);
        [done|by auto|by auto|]. rewrite HrunO in Hr. by injection Hr as _ ->. }
  split; [by rewrite HB, HO|]. intros HrO. pose proof (proj1 HO HrO) as (un & m & Hm & Hu).
  destruct (linked_merges hoO hoA _ _ _ _ Hm merger_new HhoO HhoA (linked_refl _ reach_new)) as (un3 & m3 & Hm4 & Hl3 & Hu3).
  pose proof Hm4 as Hm4'. apply merges_split in Hm4 as (un1 & un2 & mA' & HmA' & Hm2 & ->).
  destruct (merges_fun _ _ _ _ _ _ _ HmA HmA') as [<- <-].
  destruct (linked_merges hoA hoB _ _ _ _ Hm2 m0 HhoA HhoB Hlink) as (un4 & m4 & Hm5 & Hl4 & Hu4).
  assert (merges hoB merger_new (out :: tb) ([] ++ un4) m4) as HmB by by econstructor.
  assert ([] ++ un4 = [] ∨ is_Some umB) as HuB.
  { apply proj2 in Hiff. destruct Hiff as (unx & mx & Hmx & Hux); [by eauto|]. by destruct (merges_fun _ _ _ _ _ _ _ HmB Hmx) as [-> _]. }
  destruct (c99_journals E hoO _ umO (Path oO) w _ w un m HhoO Hjo Hm) as (es2 & ? & outO & Hr & HbO & _ & HwO & _); [done|by auto|by auto|].
  rewrite HrunO in Hr. injection Hr as <- _.
  destruct (c99_journals E hoB _ umB (Path oB) w1 _ w1 _ m4 HhoB Hj2 HmB) as (es2 & ? & outB & Hr & HbB & _ & HwB & _); [done|by auto|by auto|].
  rewrite HrunB in Hr. injection Hr as <- _.
  assert (outB = outO) as ->.
  { rewrite <- (linked_build m3 m4 hoA hoB) in HbB by done. rewrite <- (linked_build m m3 hoO hoA) in HbB by done. congruence. }
  exists (e_print E (into_ledger hoO outO)). split; [|apply HwO; by right; right].
  rewrite (into_ledger_order hoO hoB) by done. apply HwB. by right; right.
Qed.

(** Where everything goes that the merge command reads (C121). *)
From Verif Require Import Base Types CommentModel MergeModel CmdModel SpecBase BaseProofs MergeSpec CmdClaims MergeClaims HeaderClaims
  MergeProofs MergeLemmas CmdProofs CmdMerge CmdMerge2 CmdIdem HeaderLaws CmdPlain HistoryClaims History HistoryStep PropsMergeProofs AccountedClaims.
From Coq Require Import Lia.
Local Open Scope nat_scope.

Lemma merges_dec ho m sets : (∃ un m', merges ho m sets un m') ∨ ∀ un m', ¬ merges ho m sets un m'.
Proof.
  revert m. induction sets as [|s sets IH]; intros m; [left; eexists _, _; constructor|].
  destruct (merge ho m s) as [m1 [u|e|]] eqn:E.
  - destruct (IH m1) as [(un & m' & H)|H].
    + left. eexists _, _. by econstructor.
    + right. intros un m' Hm. inversion Hm as [|? ? m1' u' ? un' ? Hs Hr]; subst. rewrite E in Hs. injection Hs as <- <-. by apply (H un' m').
  - right. intros un m' Hm. inversion Hm as [|? ? m1' u' ? un' ? Hs Hr]; subst. by rewrite E in Hs.
  - right. intros un m' Hm. inversion Hm as [|? ? m1' u' ? un' ? Hs Hr]; subst. by rewrite E in Hs.
Qed.
Lemma merges_det ho m sets un m' un2 m2 : merges ho m sets un m' → merges ho m sets un2 m2 → un = un2 ∧ m' = m2.
Proof.
  intros H. revert un2 m2. induction H as [|m s m1 u sets un m' Hs H IH]; intros un2 m2 H2; inversion H2 as [|? ? m1' u' ? un' ? Hs' Hr]; subst; [done|].
  rewrite Hs in Hs'. injection Hs' as <- <-. by destruct (IH _ _ Hr) as [-> ->].
Qed.
(** A history of merges with what each handed back. *)
Lemma merges_runs ho m sets un m' : hash_order_ok ho → merges ho m sets un m' →
  ∃ runs : list run, merge_run m runs m' ∧ run_set <$> runs = sets ∧ un = mjoin (run_unmerged <$> runs).
Proof.
  intros Hho. induction 1 as [|m s m1 u sets un m' Hs H (runs & H1 & H2 & H3)].
  - exists []. split_and!; [constructor|done|done].
  - exists ((ho, s, u) :: runs). split_and!; [by econstructor|by rewrite fmap_cons, H2|by rewrite fmap_cons, H3].
Qed.
Lemma all_handed_returned (runs : list run) back :
  (∀ r rn, runs !! r = Some rn → Forall2 returned_unmerged (handed (back r) (run_set rn)) (run_unmerged rn)) →
  Forall2 returned_unmerged (all_handed back (run_set <$> runs)) (mjoin (run_unmerged <$> runs)).
Proof.
  revert back. induction runs as [|rn runs IH]; intros back H; [constructor|]. unfold all_handed. rewrite !fmap_cons. cbn [imap mjoin list_join].
  apply Forall2_app; [by apply (H 0)|]. apply (IH (λ r, back (S r))). intros r rn' Hr. by apply (H (S r)).
Qed.
Lemma handed_at back s x tp : s !! x = Some tp → back x = true → tp ∈ handed back s.
Proof.
  revert back x. induction s as [|tp' s IH]; intros back x; [done|]. unfold handed. cbn [imap mjoin list_join]. destruct x as [|x]; cbn.
  - intros [= <-] ->. left.
  - intros H1 H2. apply elem_of_app. right. by apply (IH (λ x, back (S x)) x).
Qed.
Lemma all_handed_at back sets r x s tp : sets !! r = Some s → s !! x = Some tp → back r x = true → tp ∈ all_handed back sets.
Proof.
  revert back r. induction sets as [|s' sets IH]; intros back r; [done|]. unfold all_handed. cbn [imap mjoin list_join]. destruct r as [|r]; cbn.
  - intros [= <-] H1 H2. apply elem_of_app. left. by eapply handed_at.
  - intros H1 H2 H3. apply elem_of_app. right. by apply (IH (λ r, back (S r)) r).
Qed.
Lemma numbered_elem s x y tp p : s !! x = Some tp → tp_posts tp !! y = Some p → (x, y, p) ∈ numbered s.
Proof.
  intros H1 H2. unfold numbered. apply elem_of_list_join. exists (imap (λ y p, (x, y, p)) (tp_posts tp)). split.
  - apply elem_of_list_lookup. exists y. by rewrite list_lookup_imap, H2.
  - apply elem_of_list_lookup. exists x. by rewrite list_lookup_imap, H1.
Qed.
Lemma merged_at_elem sets back (loc : nat → nat → nat → nat * nat) r x y tp p : kept_at sets back r x tp → tp_posts tp !! y = Some p →
  p ∈ merged_at sets back loc (loc r x y).
Proof.
  intros (s & H1 & H2 & H3) H4. unfold merged_at. apply elem_of_list_join.
  eexists. split; [|apply elem_of_list_lookup; exists r; rewrite list_lookup_imap, H1; reflexivity].
  apply elem_of_list_fmap. exists (x, y, p). split; [done|]. apply elem_of_list_filter. split; [done|]. by eapply numbered_elem.
Qed.
(** A tag of a posting that was not handed back is in the journal. *)
Lemma tag_in_journal sets back loc out r x y tp p t : accounts_for sets back loc out → kept_at sets back r x tp → tp_posts tp !! y = Some p →
  t ≠ s2l "unknown-account" → has_tag p t → ∃ q, q ∈ all_posts out ∧ has_tag q t.
Proof.
  intros Ha Hk Hp Hne Ht. destruct (af_in _ _ _ _ Ha r x y tp p Hk Hp) as (tp' & q & H1 & H2).
  exists q. split.
  - unfold all_posts. apply elem_of_list_bind. exists tp'. split; by eapply elem_of_list_lookup_2.
  - apply (cp_tags _ _ (af_says _ _ _ _ Ha (loc r x y).1 tp' (loc r x y).2 q H1 H2) t Hne). apply Exists_exists. exists p. split; [|done].
    rewrite <- surjective_pairing. by eapply merged_at_elem.
Qed.
Lemma once_unique f tps q : fps_distinct (all_posts tps) → q ∈ all_posts tps → fp_tag f → has_tag q f → once f tps.
Proof.
  intros Hd Hq Hf Ht. apply elem_of_list_split in Hq as (before & after & E). exists before, q, after. split; [done|]. split; [done|].
  rewrite E in Hd. intros q' Hq' Ht'. assert ((before ++ q :: after) !! length before = Some q) as Hm by by apply list_lookup_middle.
  assert (share_fp q q') as Hs by (exists f; split; by split).
  apply elem_of_app in Hq' as [[i Hi]%elem_of_list_lookup|[i Hi]%elem_of_list_lookup].
  - assert (length before = i) as <-.
    { eapply Hd; [exact Hm| |exact Hs]. rewrite lookup_app_l; [done|]. by eapply lookup_lt_Some. }
    apply lookup_lt_Some in Hi. lia.
  - assert (length before = S (length before + i)); [|lia].
    eapply Hd; [exact Hm| |exact Hs]. rewrite lookup_app_r by lia. replace (S (length before + i) - length before) with (S i) by lia. done.
Qed.
Lemma accounted ho plain un m out : hash_order_ok ho → merges ho merger_new plain un m → build ho m = Ok out →
  ∃ back loc, accounts_for plain back loc out ∧ Forall2 returned_unmerged (all_handed back plain) un ∧
    ∀ s tp p f, s ∈ plain → tp ∈ s → p ∈ tp_posts tp → has_fp p f →
      once f out ∨ ∃ tp' q, tp' ∈ un ∧ q ∈ tp_posts tp' ∧ has_tag q f.
Proof.
  intros Hho Hm Hb. destruct (merges_runs _ _ _ _ _ Hho Hm) as (runs & Hr & Hsets & ->).
  destruct (history_accounts runs m ho out Hr Hho Hb) as (back & loc & Ha & Hback). rewrite Hsets in Ha.
  pose proof (all_handed_returned runs back Hback) as Hret. rewrite Hsets in Hret. exists back, loc. split; [done|]. split; [done|].
  intros s tp p f [r Hs]%elem_of_list_lookup [x Hx]%elem_of_list_lookup [y Hy]%elem_of_list_lookup [Hf Ht].
  destruct (back r x) eqn:Eb.
  - right. pose proof (all_handed_at back plain r x s tp Hs Hx Eb) as Hin. apply elem_of_list_lookup in Hin as [i Hi].
    destruct (Forall2_lookup_l _ _ _ _ _ Hret Hi) as (tp' & Hi' & [_ Hps]). destruct (Forall2_lookup_l _ _ _ _ _ Hps Hy) as (q & Hq & _ & _ & _ & Htag).
    exists tp', q. split_and!; [by eapply elem_of_list_lookup_2|by eapply elem_of_list_lookup_2|]. apply Htag. by left.
  - left. assert (f ≠ s2l "unknown-account") as Hne by (destruct Hf as [u ->]; by intros [=]).
    destruct (tag_in_journal plain back loc out r x y tp p f Ha) as (q & Hq & Hqt); [by exists s|done|done|done|].
    eapply once_unique; [|exact Hq|done|done]. apply (c04 m ho out); [|done|done]. eapply merges_reachable; [exact Hho|constructor|exact Hm].
Qed.
Lemma c121 E ho inputs um output w tpss w' es :
  hash_order_ok ho → journals E w inputs tpss w' → merge_cmd E ho inputs um output w = (es, Ok tt) →
  ∃ back loc out un,
    accounts_for tpss back loc out ∧ Forall2 in_unmerged (all_handed back tpss) un ∧ (un ≠ [] → is_Some um) ∧
    (∀ s tp p f, s ∈ tpss → tp ∈ s → p ∈ tp_posts tp → has_fp p f →
       once f out ∨ ∃ tp' q, tp' ∈ un ∧ q ∈ tp_posts tp' ∧ has_tag q f) ∧
    let w1 := steps w es in
    (um ≠ Some Stdio ∨ un = [] ∨ output ≠ Stdio → holds w w1 output (e_print E (into_ledger ho out))) ∧
    (∀ f, um = Some f → un ≠ [] → f ≠ output → holds w w1 f (e_print E (into_ledger ho un))) ∧
    (∀ p, Path p ≠ output → (um = Some (Path p) → un = []) → same_file w w1 p).
Proof.
  intros Hho Hj Hes. destruct (c25_written E ho inputs um output w es Hho Hes) as (un & m & out & out' & Hc & Hb & Hoo & Hw).
  destruct (journals_sets _ _ _ _ _ Hj) as (sets & Ha & Hf). destruct Hc as [(sets' & w1 & Ha' & Hm) Hpl].
  destruct (all_inputs_fun _ _ _ _ _ _ _ Ha Ha') as [<- <-].
  destruct (merges_plain ho merger_new merger_new sets _ (sim_new _) Hf) as [H1 _].
  destruct (H1 _ _ Hm) as (un' & m1 & Hm1 & Hu & Hs). apply merges_filter in Hm1.
  assert (Hba := build_alike _ ho m m1 Hs). rewrite Hb in Hba. destruct (build ho m1) as [out2| |] eqn:Eb; try done.
  cbn in Hba. apply source_alike_all in Hba. assert (out2 = out') as -> by (by eapply unsourced_all_fun).
  destruct (accounted ho tpss un' m1 out' Hho Hm1 Eb) as (back & loc & H2 & H3 & H4).
  exists back, loc, out', un. split; [done|]. split.
  { clear -H3 Hu. revert un Hu. induction H3 as [|tp tp1 l un' Htp H IH]; intros un Hu; inversion Hu as [|tp2 ? un2 ? Hx Hu2]; subst; constructor; [by exists tp1|by apply IH]. }
  split; [intros Hne; destruct Hpl as [->|?]; [done|done]|]. split; [|done].
  intros s tp p f Hin Htp Hp Hfp. destruct (H4 s tp p f Hin Htp Hp Hfp) as [?|(tp' & q & Hi & Hq & Ht)]; [by left|right].
  apply elem_of_list_lookup in Hi as [i Hi]. destruct (Forall2_lookup_r _ _ _ _ _ Hu Hi) as (tp2 & Hi2 & Hx & _).
  exists tp2, q. split_and!; [by eapply elem_of_list_lookup_2|by rewrite <- Hx|done].
Qed.

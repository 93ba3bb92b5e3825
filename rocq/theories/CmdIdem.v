(** Proofs about running the merge command on its own output. *)
From Verif Require Import Base Types CommentModel MergeModel CmdModel SpecBase BaseProofs StrProofs MergeSpec MergeClaims
  CommentClaims CommentProofs CommentLaws MergeProofs MergeClosed MergeBuild MergeLaws MergeLaws2 MergeLaws4 MergeReplay
  MergeLaws5 PropsMergeProofs CmdClaims CmdProofs CmdMerge CmdMerge2.
Local Open Scope nat_scope.

(** ** Raw parts without comments and postings *)
Definition clean_post (p : posting_internal) : Prop := p_comment (pi_raw p) = None.
Definition clean_trn (h : transaction_internal) : Prop := t_comment (ti_raw h) = None ∧ t_postings (ti_raw h) = [].
Definition clean_tp (tp : transaction_postings) : Prop := clean_trn (tp_trn tp) ∧ Forall clean_post (tp_posts tp).
Definition clean_journal (j : journal) : Prop :=
  Forall clean_trn (j_trns j) ∧ Forall (λ x, clean_post (jp_post x)) (j_posts j).

Lemma clean_of t : clean_tp (transaction_postings_of t).
Proof.
  split; [done|]. unfold transaction_postings_of. simpl. apply Forall_fmap. apply Forall_forall. done.
Qed.
Lemma merge_posting_comment x p : p_comment (pi_raw (merge_posting x p)) = p_comment (pi_raw x).
Proof.
  unfold merge_posting. destruct (bool_decide _ && negb _);
    destruct (p_status (pi_raw x)) as [[]|], (p_status (pi_raw p)) as [[]|], (p_balance (pi_raw x)) eqn:Hb; simpl; by rewrite ?Hb.
Qed.
Lemma apply_posting_clean t d ps pv :
  Forall (λ x, clean_post (jp_post x)) ps → clean_post pv.1 →
  Forall (λ x, clean_post (jp_post x)) (apply_posting t d ps pv).
Proof.
  intros Hps Hp. unfold apply_posting. destruct (pv.2); try done.
  - apply Forall_alter; [done|]. intros x _ Hx. unfold clean_post in *. simpl. by rewrite merge_posting_comment.
  - apply Forall_app. split; [done|]. by constructor.
Qed.
Lemma apply_postings_clean t d pvs ps :
  Forall (λ x, clean_post (jp_post x)) ps → Forall (λ pv, clean_post pv.1) pvs →
  Forall (λ x, clean_post (jp_post x)) (foldl (apply_posting t d) ps pvs).
Proof.
  intros Hps Hpvs. revert ps Hps. induction Hpvs as [|pv pvs Hp Hpvs IH]; intros ps Hps; [done|].
  simpl. apply IH. by apply apply_posting_clean.
Qed.
Lemma apply_trn_clean j0 j tp : clean_journal j → clean_tp tp → clean_journal (apply_trn j0 j tp).
Proof.
  intros [H1 H2] [H3 H4]. unfold apply_trn. destruct (left_out j0 tp); [done|].
  assert (Hz : Forall (λ pv : posting_internal * verdict, clean_post pv.1) (zip (tp_posts tp) (verdicts j0 tp))).
  { apply Forall_forall. intros [p v] Hpv. apply elem_of_zip_l in Hpv. rewrite Forall_forall in H4. by apply H4. }
  destruct (dests j0 tp ≫= _) as [|t ts]; split; simpl; try done.
  - apply Forall_app. split; [done|]. by constructor.
  - by apply apply_postings_clean.
  - by apply apply_postings_clean.
Qed.
Lemma spec_merge_clean j tps : clean_journal j → Forall clean_tp tps → clean_journal (spec_merge j tps).
Proof.
  intros Hj H. unfold spec_merge. generalize j at 1. intros j0. revert j Hj.
  induction H as [|tp tps Htp H IH]; intros j Hj; [done|]. simpl. apply IH. by apply apply_trn_clean.
Qed.
Lemma merges_clean ho m sets un m' j :
  hash_order_ok ho → reachable m → represents m j → clean_journal j → merges ho m sets un m' →
  Forall (Forall clean_tp) sets → ∃ j', represents m' j' ∧ clean_journal j'.
Proof.
  intros Hho Hr Hj Hc H. revert j Hr Hj Hc. induction H as [m|m s m1 u sets un m2 Hm H IH]; intros j Hr Hj Hc Hs; [by eauto|].
  apply Forall_cons in Hs as [Hs1 Hs2].
  destruct (merge_inv m j Hr Hj ho s m1 u Hho Hm) as (_ & _ & Hj' & _).
  eapply IH; [|exact Hj'|by apply spec_merge_clean|done].
  pose proof (reach_merge m ho s Hr Hho) as Hx. by rewrite Hm in Hx.
Qed.
Lemma clean_built ho m j out :
  hash_order_ok ho → reachable m → represents m j → clean_journal j → build ho m = Ok out → Forall clean_tp out.
Proof.
  intros Hho Hr Hj [Hc1 Hc2] Hb. destruct (denotes m Hr) as (j' & Hj' & Hu & Hbuild).
  rewrite (Hu j Hj) in *. rewrite Hbuild in Hb by done. injection Hb as <-.
  apply Forall_forall. intros tp Htp. rewrite stable_sort_perm in Htp. unfold journal_trns in Htp.
  apply elem_of_lookup_imap in Htp as (t & h & -> & Hh). split; simpl.
  - rewrite Forall_forall in Hc1. by eapply Hc1, elem_of_list_lookup_2.
  - apply Forall_fmap, Forall_forall. intros x [_ Hx]%elem_of_list_filter. rewrite Forall_forall in Hc2. by apply Hc2.
Qed.
Lemma all_inputs_clean E w fs sets w' : all_inputs E w fs sets w' → Forall (Forall clean_tp) sets.
Proof.
  induction 1 as [|w f l w1 sets fs rest w2 Hrd Hs Hb H IH]; [constructor|].
  apply Forall_app. split; [|done]. apply Forall_forall. intros s Hs'. apply Forall_forall. intros tp Htp.
  destruct (proj1 (by_source_elem _ _ _ tp Hb)) as (tp0 & Htp0 & ->); [eauto|].
  apply elem_of_list_fmap in Htp0 as (t & -> & _). apply (clean_of t).
Qed.
Lemma complete_clean E ho w inputs um un m out :
  hash_order_ok ho → merge_complete E ho w inputs um un m → build ho m = Ok out → Forall clean_tp out.
Proof.
  intros Hho [(sets & w' & Ha & Hm) _] Hb.
  destruct (merges_clean ho merger_new sets un m journal_new Hho reach_new rep_new) as (j & Hj & Hc).
  - split; constructor.
  - done.
  - by eapply all_inputs_clean.
  - eapply clean_built; [done| |done|done|done]. exact (merges_reachable _ _ _ _ _ Hho reach_new Hm).
Qed.

(** ** Round trip of transactions *)
Lemma posting_roundtrip ho p : hash_order_ok ho → clean_post p → representable (pi_comment p) →
  posting_internal_of (posting_of ho p) = p.
Proof.
  intros Hho Hc Hr. destruct p as [raw c]. unfold posting_internal_of, posting_of, set_pcomment. simpl in *.
  rewrite roundtrip by done. destruct raw; simpl in *. unfold clean_post in Hc. simpl in Hc. by subst.
Qed.
Lemma trn_roundtrip ho tp : hash_order_ok ho → clean_tp tp → comments_writable tp →
  transaction_postings_of (transaction_of_postings ho tp) = tp.
Proof.
  intros Hho [[Hc1 Hc2] Hc3] [Hr1 Hr2]. destruct tp as [[raw c] ps]. simpl in *.
  unfold transaction_postings_of, transaction_of_postings, transaction_internal_of, transaction_of, set_tcomment, set_tpostings. simpl.
  rewrite roundtrip by done. f_equal.
  - destruct raw; simpl in *. by subst.
  - rewrite <- list_fmap_compose. rewrite <- (list_fmap_id ps) at 2. apply list_fmap_ext.
    intros i p Hp%elem_of_list_lookup_2. simpl. rewrite Forall_forall in Hc3. apply posting_roundtrip; auto.
Qed.
Lemma into_ledger_order ho ho' tps : hash_order_ok ho → hash_order_ok ho' → into_ledger ho tps = into_ledger ho' tps.
Proof.
  intros Hho Hho'. unfold into_ledger. f_equal. apply list_fmap_ext. intros i tp _.
  unfold transaction_of_postings, transaction_of, posting_of. rewrite (into_opt_comment_order ho ho') by done.
  f_equal. apply list_fmap_ext. intros k p _. by rewrite (into_opt_comment_order ho ho').
Qed.
Lemma from_into_ledger ho tps :
  hash_order_ok ho → Forall clean_tp tps → (∀ tp, tp ∈ tps → comments_writable tp) →
  transaction_postings_of <$> ledger_trns (into_ledger ho tps) = tps.
Proof.
  intros Hho Hc Hw. unfold into_ledger. rewrite ledger_trns_of, <- list_fmap_compose.
  rewrite <- (list_fmap_id tps) at 2. apply list_fmap_ext. intros i tp Htp%elem_of_list_lookup_2. simpl.
  rewrite Forall_forall in Hc. apply trn_roundtrip; auto.
Qed.

(** ** The second run *)
Lemma unsourced_sourced file x y : unsourced (sourced file x) y → source_tag x = None → y = x.
Proof.
  intros (H1 & H2 & H3 & H4 & H5 & H6) Hs. destruct x as [[raw c] ps], y as [[raw' c'] ps'].
  unfold sourced in *. simpl in *. subst. f_equal. f_equal. destruct c as [l t v], c' as [l' t' v']. simpl in *. subst.
  f_equal. apply map_eq. intros k. destruct (decide (k = s2l "source-file")) as [->|Hk].
  - rewrite H5. symmetry. exact Hs.
  - rewrite H6 by done. by rewrite lookup_insert_ne.
Qed.
Lemma unsourced_tag x y : unsourced x y → source_tag y = None.
Proof. by intros (_ & _ & _ & _ & H & _). Qed.
Lemma unsourced_same x y : unsourced x y → tp_posts y = tp_posts x ∧ tp_date y = tp_date x.
Proof. intros (H1 & H2 & _). unfold tp_date. by rewrite H2. Qed.
Lemma unsourced_clean x y : unsourced x y → clean_tp x → clean_tp y.
Proof. intros (H1 & H2 & _) [[Ha Hb] Hc]. split; [split|]; by rewrite ?H1, ?H2. Qed.
Lemma unsourced_posts out out' : Forall2 unsourced out out' → all_posts out' = all_posts out.
Proof.
  induction 1 as [|x y l k Hxy H IH]; [done|]. unfold all_posts in *. rewrite !bind_cons.
  destruct (unsourced_same _ _ Hxy) as [-> _]. by f_equal.
Qed.
Lemma sourced_posts file out : all_posts (sourced file <$> out) = all_posts out.
Proof. induction out as [|x l IH]; [done|]. unfold all_posts in *. rewrite fmap_cons, !bind_cons. by f_equal. Qed.

(** The sets read from a journal whose transactions have no source. *)
Lemma by_source_none file tps :
  (∀ tp, tp ∈ tps → source_tag tp = None) → tps ≠ [] → by_source file tps [sourced file <$> tps].
Proof.
  intros Hs Hne. exists [file].
  assert (Hsrc : ∀ tp, tp ∈ tps → source_of file tp = file).
  { intros tp Htp. unfold source_of. by rewrite Hs. }
  split_and!.
  - repeat constructor.
  - intros s. rewrite elem_of_list_singleton. split.
    + intros ->. destruct tps as [|tp tps]; [done|]. exists tp. split; [by left|]. apply Hsrc. by left.
    + intros (tp & Htp & <-). by apply Hsrc.
  - rewrite fmap_cons. do 2 f_equal. symmetry. clear Hne Hs.
    induction tps as [|tp tps IH]; [done|]. rewrite filter_cons_True by (apply Hsrc; by left). f_equal.
    apply IH. intros tp' Htp'. apply Hsrc. by right.
Qed.

Lemma c30 E ho ho2 inputs um o w es w1 text E2 um2 o2 es2 r2 :
  hash_order_ok ho → hash_order_ok ho2 →
  merge_cmd E ho inputs um (Path o) w = (es, Ok tt) → w1 = steps w es → w_files w1 !! o = Some text →
  (* printer and parser agree on this text, and comments can be written *)
  e_print E2 = e_print E →
  (∀ un m out out', merge_complete E ho w inputs um un m → build ho m = Ok out → Forall2 unsourced out out' →
     (let l := into_ledger ho out' in e_parse E2 (e_print E l) = Some l) ∧ ∀ tp, tp ∈ out' → comments_writable tp) →
  (* nothing goes wrong with the files *)
  f_read E2 (Path o) = false → writable E2 o2 →
  merge_cmd E2 ho2 [Path o] um2 o2 w1 = (es2, r2) →
  r2 = Ok tt ∧ holds w1 (steps w1 es2) o2 text.
Proof.
  intros Hho Hho2 Hrun -> Htext Hpr Hcw Hrd Hwr Hrun2.
  destruct (c25_written E ho inputs um (Path o) w es Hho Hrun) as (un & m & out & out' & Hmc & Hb & Hun & Hout & _ & _).
  simpl in Hout. specialize (Hout ltac:(by right; right)). rewrite Htext in Hout. injection Hout as ->.
  destruct (Hcw _ _ _ _ Hmc Hb Hun) as [Hps Hcw']. simpl in Hps.
  set (L := into_ledger ho out') in *. set (w1 := steps w es) in *.
  assert (Hreads : reads E2 w1 (Path o) L w1). { econstructor; [done|done|]. exact Hps. }
  assert (Hr : reachable m).
  { destruct Hmc as [(sets & w' & Ha & Hm) _]. exact (merges_reachable _ _ _ _ _ Hho reach_new Hm). }
  assert (Hclean : Forall clean_tp out').
  { pose proof (complete_clean _ _ _ _ _ _ _ _ Hho Hmc Hb) as Hc. clear -Hun Hc.
    induction Hun as [|x y l k Hxy H IH]; [constructor|]. apply Forall_cons in Hc as [Hc1 Hc2].
    constructor; [by eapply unsourced_clean|auto]. }
  assert (HL : transaction_postings_of <$> ledger_trns L = out').
  { apply from_into_ledger; [done|done|]. exact Hcw'. }
  assert (Hsrc : ∀ tp, tp ∈ out' → source_tag tp = None).
  { intros tp Htp. apply elem_of_list_lookup in Htp as [i Hi].
    destruct (Forall2_lookup_r _ _ _ _ _ Hun Hi) as (x & _ & Hx). by eapply unsourced_tag. }
  (* merging the journal read back *)
  set (file := filespec_display E2 (Path o)).
  assert (Hacc : acceptable journal_new out).
  { destruct (rebuild m ho ho ho out Hr Hho Hho Hho Hb) as (mx & Hmx & _).
    apply (merge_ok_iff merger_new journal_new reach_new rep_new ho); [done|]. eauto. }
  assert (Hposts : all_posts (sourced file <$> out') = all_posts out).
  { rewrite sourced_posts. by apply unsourced_posts. }
  assert (Hne : ∀ tp, tp ∈ out' → tp_posts tp ≠ []).
  { intros tp Htp. apply elem_of_list_lookup in Htp as [i Hi].
    destruct (Forall2_lookup_r _ _ _ _ _ Hun Hi) as (x & Hx & Hxy).
    destruct (unsourced_same _ _ Hxy) as [-> _]. eapply c20_none; [exact Hr|exact Hho|exact Hb|]. by eapply elem_of_list_lookup_2. }
  assert (Hsort : stable_sort (by_key tp_date) (sourced file <$> out') = sourced file <$> out').
  { apply stable_sort_id. pose proof (c08_sorted m ho out Hr Hho Hb) as Hs. clear -Hs Hun.
    induction Hun as [|x y l k Hxy H IH]; [constructor|]. inversion Hs as [|? ? Hs1 Hs2]; subst.
    rewrite fmap_cons. constructor; [by apply IH|]. apply Forall_fmap, Forall_forall. intros z Hz.
    apply elem_of_list_lookup in Hz as [i Hi]. destruct (Forall2_lookup_r _ _ _ _ _ H Hi) as (z' & Hz' & Hzz).
    rewrite Forall_forall in Hs2. specialize (Hs2 z' ltac:(by eapply elem_of_list_lookup_2)).
    unfold by_key. simpl. change (tp_date (sourced file ?a)) with (tp_date a).
    destruct (unsourced_same _ _ Hxy) as [_ ->]. by destruct (unsourced_same _ _ Hzz) as [_ ->]. }
  assert (Hfe : filter (λ tp, tp_posts tp = []) (sourced file <$> out') = []).
  { apply elem_of_nil_inv. intros tp [He Htp]%elem_of_list_filter. apply elem_of_list_fmap in Htp as (x & -> & Hx).
    by apply (Hne x). }
  assert (Hfn : filter (λ tp, tp_posts tp ≠ []) (sourced file <$> out') = sourced file <$> out').
  { clear -Hne. induction out' as [|x l IH]; [done|]. rewrite fmap_cons. rewrite filter_cons_True.
    - f_equal. apply IH. intros tp Htp. apply Hne. by right.
    - apply (Hne x). by left. }
  destruct (from_empty ho2 ho2 (sourced file <$> out') Hho2 Hho2) as (m2 & Hm2 & Hb2).
  { rewrite Hposts. apply (ac_mergeable _ _ Hacc). }
  { rewrite Hposts. apply (ac_distinct _ _ Hacc). }
  rewrite Hfe in Hm2. rewrite Hfn, Hsort in Hb2.
  assert (Hsets : ∃ sets, by_source file out' sets ∧ ∃ m3, merges ho2 merger_new sets [] m3 ∧ build ho2 m3 = Ok (sourced file <$> out')).
  { destruct (decide (out' = [])) as [->|Hnil].
    - exists []. split.
      + exists []. split_and!; [constructor| |done]. intros s. split; [by intros ?%elem_of_nil|].
        intros (tp & ?%elem_of_nil & _). done.
      + exists merger_new. split; [constructor|]. simpl in Hm2. by injection Hm2 as <-.
    - exists [sourced file <$> out']. split; [by apply by_source_none|]. exists m2. split; [|done].
      change (@nil transaction_postings) with (@nil transaction_postings ++ []). econstructor; [done|constructor]. }
  destruct Hsets as (sets & Hbs & m3 & Hms & Hb3).
  assert (Hmc2 : merge_complete E2 ho2 w1 [Path o] um2 [] m3).
  { split; [|by left]. exists (sets ++ []), w1. rewrite app_nil_r. split; [|done].
    rewrite <- (app_nil_r sets). econstructor; [exact Hreads| | |constructor].
    - apply ledger_supported.
    - rewrite HL. exact Hbs. }
  (* the run *)
  destruct (merge_cmd_spec E2 ho2 [Path o] um2 o2 w1 Hho2) as (es' & r' & E' & Hcase).
  rewrite Hrun2 in E'. injection E' as <- <-.
  destruct Hcase as [(_ & _ & Hn)|(un' & m' & out2 & es1 & es2' & es3 & Hmc' & Hr' & Hb' & -> & Hq & Hcase)].
  { by apply Hn in Hmc2. }
  destruct (merge_complete_fun _ _ _ _ _ _ _ _ _ Hmc2 Hmc') as [<- <-]. rewrite Hb3 in Hb'. injection Hb' as <-.
  destruct Hcase as [(_ & -> & Hw)|(fu & ? & _)]; [|done].
  assert (Hstrip : strip_sources (sourced file <$> out') = out').
  { pose proof (strip_unsourced (sourced file <$> out')) as H. rewrite Forall2_fmap_l in H.
    clear -H Hsrc. induction H as [|x y l k Hxy H IH]; [done|]. f_equal.
    - eapply unsourced_sourced; [done|]. apply Hsrc. by left.
    - apply IH. intros tp Htp. apply Hsrc. by right. }
  rewrite Hstrip, Hpr, (into_ledger_order ho2 ho) in Hw by done. fold L in Hw.
  destruct (write_file_spec E2 o2 (e_print E L) (steps w1 es1)) as (es' & r' & E' & [[-> Hs]|[-> Hx]] & _); [|done].
  rewrite Hw in E'. injection E' as <- ->. split; [done|]. rewrite !steps_app. change (steps (steps w1 es1) []) with (steps w1 es1).
  rewrite Hs. pose proof (written_holds (steps w1 es1) o2 (e_print E L)) as Hh.
  destruct o2; [|done]. simpl in *. destruct (quiet_untouched w1 es1 Hq) as (_ & _ & ->). done.
Qed.

(** C61 *)
Lemma c61_back ho tps :
  hash_order_ok ho → (∀ tp, tp ∈ tps → ∃ t, tp = transaction_postings_of t) → (∀ tp, tp ∈ tps → comments_writable tp) →
  from_ledger (into_ledger ho tps) = Ok tps.
Proof.
  intros Hho Hp Hw. apply from_ledger_iff. split; [apply ledger_supported|]. symmetry. apply from_into_ledger; [done| |done].
  apply Forall_forall. intros tp Htp. destruct (Hp tp Htp) as [t ->]. apply clean_of.
Qed.

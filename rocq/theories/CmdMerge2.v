(** Proofs about the merge command: crash points, source tags, idempotence. *)
From Verif Require Import Base Types CommentModel MergeModel CmdModel SpecBase BaseProofs StrProofs MergeSpec MergeClaims
  CommentClaims CommentProofs CommentLaws MergeProofs MergeClosed MergeBuild MergeLaws MergeLaws4 PropsMergeProofs CmdClaims CmdProofs CmdMerge.
Local Open Scope nat_scope.

(** C28 *)
Lemma crash_write E f text w es r w0 w' :
  write_file E f text w = (es, r) → untouched w0 w → crash_world w es w' →
  (∀ p, f ≠ Path p → same_file w0 w' p) ∧ w_dirs w' = w_dirs w0 ∧
  (w' = w ∨ ∃ part rest, text = part ++ rest ∧ w' = written w f part).
Proof.
  intros Hw (Hf & Hd & Ho) Hc. destruct (write_file_spec E f text w) as (es' & r' & E' & _ & Hcr).
  rewrite Hw in E'. injection E' as <- <-. specialize (Hcr w' Hc). split_and!; [..|done].
  - intros p Hp. unfold same_file. destruct Hcr as [->|(part & rest & _ & ->)]; [by rewrite Hf|].
    rewrite (written_other w f part p Hp). by rewrite Hf.
  - destruct Hcr as [->|(part & rest & _ & ->)]; [done|]. by destruct f.
Qed.

Lemma c28_others E ho inputs um output w es r w' p :
  hash_order_ok ho → merge_cmd E ho inputs um output w = (es, r) → crash_world w es w' →
  output ≠ Path p → um ≠ Some (Path p) → same_file w w' p ∧ w_dirs w' = w_dirs w.
Proof.
  intros Hho Hc Hcr Ho Hu. destruct (merge_cmd_spec E ho inputs um output w Hho) as (es' & r' & E' & Hcase).
  rewrite Hc in E'. injection E' as <- <-.
  destruct Hcase as [(_ & Hq & _)|(un & m & out & es1 & es2 & es3 & Hm & Hr & Hb & -> & Hq & Hcase)].
  { destruct (quiet_crash w es w' Hq Hcr) as (Hf & Hd & _). split; [|done]. unfold same_file. by rewrite Hf. }
  pose proof (quiet_untouched w es1 Hq) as Hu1.
  apply crash_app in Hcr as [Hcr|Hcr].
  { destruct (quiet_crash w es1 w' Hq Hcr) as (Hf & Hd & _). split; [|done]. unfold same_file. by rewrite Hf. }
  destruct Hcase as [(-> & -> & Hw)|(fu & Hne & -> & [(Hw & _ & ->)|(Hw & Hw')])].
  - destruct (crash_write E output _ _ _ _ w w' Hw Hu1 Hcr) as (Hf & Hd & _). split; [by apply Hf|done].
  - rewrite app_nil_r in Hcr. destruct (crash_write E fu _ _ _ _ w w' Hw Hu1 Hcr) as (Hf & Hd & _).
    split; [apply Hf; congruence|done].
  - apply crash_app in Hcr as [Hcr|Hcr].
    + destruct (crash_write E fu _ _ _ _ w w' Hw Hu1 Hcr) as (Hf & Hd & _). split; [apply Hf; congruence|done].
    + destruct (write_file_spec E fu (e_print E (into_ledger ho un)) (steps w es1)) as (es' & r' & E' & [[-> Hs]|[-> _]] & _); [|congruence].
      rewrite Hw in E'. injection E' as <-. rewrite Hs in *.
      destruct (crash_write E output _ _ _ _ (written (steps w es1) fu (e_print E (into_ledger ho un))) w' Hw' ltac:(done) Hcr) as (Hf & Hd & _).
      destruct Hu1 as (Hf1 & Hd1 & _). split.
      * unfold same_file. rewrite (Hf p Ho). rewrite (written_other _ fu _ p) by congruence. by rewrite Hf1.
      * rewrite Hd. destruct fu; simpl; done.
Qed.

Lemma c28_order E ho inputs fu output w es r w' un m :
  hash_order_ok ho → merge_cmd E ho inputs (Some fu) output w = (es, r) → crash_world w es w' →
  merge_complete E ho w inputs (Some fu) un m → un ≠ [] → fu ≠ output →
  output_touched w w' output → holds w w' fu (e_print E (into_ledger ho un)).
Proof.
  intros Hho Hc Hcr Hm0 Hun Hfo Ht. destruct (merge_cmd_spec E ho inputs (Some fu) output w Hho) as (es' & r' & E' & Hcase).
  rewrite Hc in E'. injection E' as <- <-.
  assert (Hunt : ∀ w1, untouched w w1 → ¬ output_touched w w1 output).
  { intros w1 (H1 & _ & H2). unfold output_touched. destruct output; [rewrite H2; intros H; by apply H|]. unfold same_file. rewrite H1. intros H; by apply H. }
  destruct Hcase as [(_ & Hq & _)|(un' & m' & out & es1 & es2 & es3 & Hm & Hr & Hb & -> & Hq & Hcase)].
  { destruct (Hunt w'); [by eapply quiet_crash|done]. }
  destruct (merge_complete_fun _ _ _ _ _ _ _ _ _ Hm0 Hm) as [<- <-].
  apply crash_app in Hcr as [Hcr|Hcr]. { destruct (Hunt w'); [by eapply quiet_crash|done]. }
  pose proof (quiet_untouched w es1 Hq) as Hu1. set (w1 := steps w es1) in *.
  assert (Hfu : ∀ t, ¬ output_touched w (written w1 fu t) output).
  { intros t. destruct Hu1 as (Hf & _ & Ho). unfold output_touched. destruct output as [|q], fu as [|q']; try done; simpl.
    - rewrite Ho. intros H; by apply H.
    - unfold same_file. simpl. rewrite Hf. intros H; by apply H.
    - unfold same_file. simpl. rewrite Hf, lookup_insert_ne by congruence. intros H; by apply H. }
  assert (Hw2 : ∀ e es2 r2, write_file E fu e w1 = (es2, r2) → crash_world w1 es2 w' → ¬ output_touched w w' output).
  { intros e es' r' Hw Hc'. destruct (crash_write E fu _ _ _ _ w w' Hw Hu1 Hc') as (_ & _ & [->|(part & rest & _ & ->)]); [by apply Hunt|apply Hfu]. }
  destruct Hcase as [(-> & -> & Hw)|(fu' & Hne & [= <-] & [(Hw & _ & ->)|(Hw & Hw')])]; [done|..].
  - rewrite app_nil_r in Hcr. by destruct (Hw2 _ _ _ Hw Hcr).
  - apply crash_app in Hcr as [Hcr|Hcr]; [by destruct (Hw2 _ _ _ Hw Hcr)|].
    set (textu := e_print E (into_ledger ho un)) in *.
    destruct (write_file_spec E fu textu w1) as (es' & r' & E' & [[-> Hs]|[-> _]] & _); [|congruence].
    rewrite Hw in E'. injection E' as <-. rewrite Hs in *.
    destruct (crash_write E output _ _ _ _ (written w1 fu textu) w' Hw' ltac:(done) Hcr) as (Hf & _ & Hx).
    destruct fu as [|p]; simpl.
    + destruct Hu1 as (_ & _ & Ho). destruct Hx as [->|(part & rest & _ & ->)]; simpl; [by rewrite Ho|].
      destruct output; [done|]. simpl. by rewrite Ho.
    + rewrite (Hf p) by congruence. simpl. by rewrite lookup_insert.
Qed.

(** Crash points of the two files themselves. *)
Lemma c28_partial_files E ho inputs um output w es r w' p :
  hash_order_ok ho → merge_cmd E ho inputs um output w = (es, r) → crash_world w es w' →
  same_file w w' p ∨
  (∃ un m out out' part rest, merge_complete E ho w inputs um un m ∧ build ho m = Ok out ∧ Forall2 unsourced out out' ∧
     w_files w' !! p = Some part ∧
     ((um = Some (Path p) ∧ un ≠ [] ∧ e_print E (into_ledger ho un) = part ++ rest) ∨
      (output = Path p ∧ e_print E (into_ledger ho out') = part ++ rest))).
Proof.
  intros Hho Hc Hcr. destruct (merge_cmd_spec E ho inputs um output w Hho) as (es' & r' & E' & Hcase).
  rewrite Hc in E'. injection E' as <- <-.
  destruct Hcase as [(_ & Hq & _)|(un & m & out & es1 & es2 & es3 & Hm & Hr & Hb & -> & Hq & Hcase)].
  { left. destruct (quiet_crash w es w' Hq Hcr) as (Hf & _). unfold same_file. by rewrite Hf. }
  apply crash_app in Hcr as [Hcr|Hcr].
  { left. destruct (quiet_crash w es1 w' Hq Hcr) as (Hf & _). unfold same_file. by rewrite Hf. }
  pose proof (quiet_untouched w es1 Hq) as (Hf1 & _). set (w1 := steps w es1) in *.
  assert (Hgen : ∀ f text wa es2 r2, write_file E f text wa = (es2, r2) → crash_world wa es2 w' →
     same_file wa w' p ∨ (f = Path p ∧ ∃ part rest, text = part ++ rest ∧ w_files w' !! p = Some part)).
  { intros f text wa es' r' Hw Hc'. destruct (write_file_spec E f text wa) as (es4 & r4 & E' & _ & Hx).
    rewrite Hw in E'. injection E' as <- <-. destruct (Hx w' Hc') as [->|(part & rest & -> & ->)]; [by left|].
    destruct (decide (f = Path p)) as [->|Hp].
    - right. split; [done|]. exists part, rest. simpl. by rewrite lookup_insert.
    - left. by apply written_other. }
  pose proof (strip_unsourced out) as Hst.
  assert (Hx1 : same_file w1 w' p → same_file w w' p) by (unfold same_file; by rewrite Hf1).
  destruct Hcase as [(-> & -> & Hw)|(fu & Hne & -> & [(Hw & _ & ->)|(Hw & Hw')])].
  - destruct (Hgen _ _ _ _ _ Hw Hcr) as [H|(-> & part & rest & Ht & H)]; [left; by apply Hx1|right].
    exists [], m, out, (strip_sources out), part, rest. split_and!; try done. right. done.
  - rewrite app_nil_r in Hcr. destruct (Hgen _ _ _ _ _ Hw Hcr) as [H|(-> & part & rest & Ht & H)]; [left; by apply Hx1|right].
    exists un, m, out, (strip_sources out), part, rest. split_and!; try done. left. done.
  - apply crash_app in Hcr as [Hcr|Hcr].
    + destruct (Hgen _ _ _ _ _ Hw Hcr) as [H|(-> & part & rest & Ht & H)]; [left; by apply Hx1|right].
      exists un, m, out, (strip_sources out), part, rest. split_and!; try done. left. done.
    + destruct (write_file_spec E fu (e_print E (into_ledger ho un)) w1) as (es' & r' & E' & [[-> Hs]|[-> _]] & _); [|congruence].
      rewrite Hw in E'. injection E' as <-. rewrite Hs in *.
      destruct (Hgen _ _ _ _ _ Hw' Hcr) as [H|(-> & part & rest & Ht & H)].
      * destruct (decide (fu = Path p)) as [->|Hp].
        -- right. exists un, m, out, (strip_sources out), (e_print E (into_ledger ho un)), [].
           unfold same_file in H. split_and!; try done; [etrans; [exact H|]; simpl; by rewrite lookup_insert|left; by rewrite app_nil_r].
        -- left. apply Hx1. unfold same_file. rewrite H. by apply written_other.
      * right. exists un, m, out, (strip_sources out), part, rest. split_and!; try done. right. done.
Qed.

(** C26 *)
Lemma sourced_tag file tp : source_tag (sourced file tp) = Some (source_of file tp).
Proof. unfold source_tag at 1, sourced. simpl. apply lookup_insert. Qed.
Lemma by_source_elem file tps sets tp :
  by_source file tps sets → (∃ s, s ∈ sets ∧ tp ∈ s) ↔ ∃ tp0, tp0 ∈ tps ∧ tp = sourced file tp0.
Proof.
  intros (ss & _ & Hin & ->). split.
  - intros (s & (src & -> & Hs)%elem_of_list_fmap & (tp0 & -> & [_ Htp]%elem_of_list_filter)%elem_of_list_fmap). eauto.
  - intros (tp0 & Htp & ->). eexists. split.
    + apply elem_of_list_fmap. exists (source_of file tp0). split; [done|]. apply Hin. eauto.
    + apply elem_of_list_fmap. exists tp0. split; [done|]. by apply elem_of_list_filter.
Qed.
Lemma filter_partition {A B} `{EqDecision B} (key : A → B) (ks : list B) (l : list A) :
  NoDup ks → (∀ x, x ∈ l → key x ∈ ks) → mjoin ((λ k, filter (λ x, key x = k) l) <$> ks) ≡ₚ l.
Proof.
  intros Hnd. revert l. induction Hnd as [|k ks Hk Hnd IH]; intros l Hl.
  - destruct l as [|x l]; [done|]. specialize (Hl x ltac:(by left)). by apply elem_of_nil in Hl.
  - rewrite fmap_cons. change (mjoin (?a :: ?b)) with (a ++ mjoin b).
    assert (Hsub : (λ k', filter (λ x, key x = k') l) <$> ks = (λ k', filter (λ x, key x = k') (filter (λ x, key x ≠ k) l)) <$> ks).
    { apply list_fmap_ext. intros i k' Hk'%elem_of_list_lookup_2. rewrite list_filter_filter.
      apply list_filter_iff. intros x. split; [|naive_solver]. intros <-. split; [done|]. intros <-. done. }
    rewrite Hsub, IH.
    + clear. induction l as [|x l IHl]; [done|]. rewrite !filter_cons. destruct (decide (key x = k)).
      * rewrite (decide_False (P := key x ≠ k)) by auto. simpl. by constructor.
      * rewrite (decide_True (P := key x ≠ k)) by auto. by rewrite <- Permutation_middle, IHl.
    + intros x [Hx1 Hx2]%elem_of_list_filter. apply Hl in Hx2. apply elem_of_cons in Hx2 as [?|?]; [congruence|done].
Qed.
Lemma str_sorted_nodup l : StronglySorted str_lt l → NoDup l.
Proof.
  induction 1 as [|x l Hl IH Hx]; constructor; [|done]. intros Hin. rewrite Forall_forall in Hx.
  by apply (str_lt_irrefl x), Hx.
Qed.
Lemma by_source_perm file tps sets : by_source file tps sets → mjoin sets ≡ₚ sourced file <$> tps.
Proof.
  intros (ss & Hs & Hin & ->).
  assert (E : ∀ (f : transaction_postings → transaction_postings) (g : str → list transaction_postings) l,
    mjoin ((λ s, f <$> g s) <$> l) = f <$> mjoin (g <$> l)).
  { intros f g l. induction l as [|x l IH]; [done|]. rewrite !fmap_cons.
    change (mjoin (?a :: ?b)) with (a ++ mjoin b). by rewrite IH, <- fmap_app. }
  rewrite E. apply fmap_Permutation. apply filter_partition; [by apply str_sorted_nodup|].
  intros tp Htp. apply Hin. eauto.
Qed.
Lemma by_source_tags file tps sets s tp :
  by_source file tps sets → s ∈ sets → tp ∈ s → is_Some (source_tag tp).
Proof.
  intros Hb Hs Htp. destruct (proj1 (by_source_elem file tps sets tp Hb)) as (tp0 & _ & ->); [eauto|].
  rewrite sourced_tag. by eexists.
Qed.
Lemma all_inputs_tags E w fs sets w' s tp :
  all_inputs E w fs sets w' → s ∈ sets → tp ∈ s → is_Some (source_tag tp).
Proof.
  induction 1 as [|w f l w1 sets fs rest w2 Hrd Hs Hb H IH]; [by intros ?%elem_of_nil|].
  intros [Hin|Hin]%elem_of_app Htp; [by eapply by_source_tags|auto].
Qed.

(** C27 *)
Lemma merges_headers ho m sets un m' tp :
  hash_order_ok ho → reachable m → merges ho m sets un m' → tp ∈ un →
  ∃ s tp0, s ∈ sets ∧ tp0 ∈ s ∧ tp_trn tp = tp_trn tp0.
Proof.
  intros Hho Hr H. induction H as [m|m s m1 u sets un m2 Hm H IH]; [by intros ?%elem_of_nil|].
  intros [Hin|Hin]%elem_of_app.
  - destruct (reachable_represents _ Hr) as (j & Hj & _).
    destruct (handed_back_spec m j Hr Hj ho s m1 u Hho Hm) as (lo & _ & Hun & _).
    apply elem_of_list_lookup in Hin as [i Hi].
    destruct (Forall2_lookup_r _ _ _ _ _ Hun Hi) as (tp0 & Hi0 & [Ht _]).
    apply elem_of_list_lookup_2, elem_of_list_filter in Hi0 as [_ Hi0].
    exists s, tp0. split_and!; [by left|done|done].
  - destruct IH as (s' & tp0 & Hs & ?); [|done|].
    + pose proof (reach_merge m ho s Hr Hho) as Hx. by rewrite Hm in Hx.
    + exists s', tp0. split; [by right|done].
Qed.
Lemma c27_unmerged E ho w inputs um un m tp :
  hash_order_ok ho → merge_complete E ho w inputs um un m → tp ∈ un → is_Some (source_tag tp).
Proof.
  intros Hho [(sets & w' & Ha & Hm) _] Htp.
  destruct (merges_headers ho merger_new sets un m tp Hho reach_new Hm Htp) as (s & tp0 & Hs & Htp0 & E0).
  unfold source_tag. rewrite E0. by eapply all_inputs_tags.
Qed.

(** C26 *)
Lemma c26 E ho f w es sets :
  hash_order_ok ho → read_sources E ho f w = (es, Ok sets) →
  ∃ l, reads E w f l (steps w es) ∧ supported l ∧
    let tps := transaction_postings_of <$> ledger_trns l in
    by_source (filespec_display E f) tps sets ∧
    mjoin sets ≡ₚ sourced (filespec_display E f) <$> tps.
Proof.
  intros Hho H. destruct (read_sources_spec E ho f w Hho) as (es' & r & E' & _ & Hcase). rewrite H in E'. injection E' as <- <-.
  destruct Hcase as [(l & s & [= <-] & Hr & Hs & Hb)|([e ?] & _)]; [|done]. exists l. split; [done|]. split; [done|]. split; [done|].
  by apply by_source_perm.
Qed.
Lemma c26_reads E ho f w l w' :
  hash_order_ok ho → reads E w f l w' → supported l → ∃ es sets, read_sources E ho f w = (es, Ok sets).
Proof.
  intros Hho Hr Hs. destruct (read_sources_spec E ho f w Hho) as (es & r & -> & _ & [(l' & s & -> & _)|(_ & Hn)]); [by eauto|].
  by apply Hn in Hr.
Qed.

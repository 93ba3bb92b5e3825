(** Proofs for C138: merging the last inputs again. *)
From Verif Require Import Base Types CommentModel MergeModel CmdModel SpecBase BaseProofs MergeSpec MergeClaims
  MergeProofs MergePending MergeApply MergeBuild MergeClosed MergeLemmas MergePlaces MergeLaws MergeLaws2
  MergeLaws3 MergeLaws4 MergeReplay CommentLaws CmdClaims CmdProofs CmdMerge CmdMerge2 CmdIdem HeaderClaims HeaderLaws CmdPlain WorkCmd ReRun.
From Coq Require Import Lia.
Local Open Scope nat_scope.

Lemma fold_again_any x l : foldl merge_posting (foldl merge_posting x l) l = foldl merge_posting x l.
Proof.
  rewrite fold_absorbed.
  - rewrite fold_values. set (v := value_tags (pi_comment x)).
    assert (vals (vals v l) l = vals v l) as ->.
    { rewrite (vals_app (vals v l)), (vals_app v). by rewrite (assoc_L (∪)), (idemp_L (∪)). }
    unfold v. rewrite <- fold_values. by destruct (foldl merge_posting x l) as [? []].
  - intros q Hq. apply fold_all_absorbed. by right.
Qed.
Lemma fold_again_suffix p rest l k : p :: rest = l ++ k →
  foldl merge_posting (foldl merge_posting p rest) k = foldl merge_posting p rest.
Proof.
  intros E. destruct l as [|p' l]; simpl in E.
  - subst k. apply fold_again.
  - injection E as <- ->. rewrite !foldl_app. apply fold_again_any.
Qed.
Lemma replay_last j A B : logged (j_posts j) (A ++ B) →
  (λ x, JP (jp_trn x) (jp_date x)
      (foldl merge_posting (jp_post x) (sharing (jp_post x) (all_posts (mjoin B))))) <$> j_posts j = j_posts j.
Proof.
  intros Hl. rewrite <- (list_fmap_id (j_posts j)) at 2. apply list_fmap_ext. intros i x Hx.
  destruct (Hl x) as (p & rest & E & Ex); [by eapply elem_of_list_lookup_2|].
  rewrite mjoin_app, all_posts_app, sharing_app in E. symmetry in E. apply fold_again_suffix in E.
  rewrite Ex at 1. rewrite E, <- Ex. by destruct x.
Qed.
Lemma zip_runs (hos : list hash_order) (B S : list (list transaction_postings)) :
  length hos = length B → Forall hash_order_ok hos → (∀ s, s ∈ B → s ∈ S) →
  ∀ h s, (h, s) ∈ zip hos B → hash_order_ok h ∧ s ∈ S.
Proof.
  intros Hlen Hhos HS h s Hin. split.
  - apply elem_of_zip_l in Hin. by eapply Forall_forall in Hhos.
  - apply elem_of_zip_r in Hin. by apply HS.
Qed.

(** In the same merger nothing at all changes. *)
Lemma c138_state A B m hos : clean_run merger_new (A ++ B) m →
  length hos = length B → Forall hash_order_ok hos → clean_run m (zip hos B.*2) m.
Proof.
  intros Hrun Hlen Hhos.
  destruct (run_logged merger_new (A ++ B) m journal_new [] Hrun reach_new rep_new) as (j & Hr & Hj & Hh & Hl).
  { apply homes_nil. } { intros x Hx. by apply elem_of_nil in Hx. }
  simpl in Hh, Hl. rewrite fmap_app in Hh, Hl.
  assert ((zip hos B.*2).*2 = B.*2) as Ez by (apply snd_zip; rewrite fmap_length; lia).
  destruct (replay_run j m (zip hos B.*2) (A.*2 ++ B.*2)) as (m' & Hrun' & Hr' & Hj'); [|done..|].
  { apply zip_runs; [by rewrite fmap_length|done|]. intros s Hs. apply elem_of_app. by right. }
  rewrite Ez, (replay_last j A.*2 B.*2) in Hj' by done.
  assert (represents m' j) as HJ' by by destruct j.
  assert (m' = m) as -> by by eapply represents_merger. done.
Qed.

(** And in one that starts from what was built. *)
Lemma c138_built A B m ho out : clean_run merger_new (A ++ B) m → hash_order_ok ho → build ho m = Ok out →
  ∀ hos, length hos = S (length B) → Forall hash_order_ok hos →
  ∃ m', clean_run merger_new (zip hos (out :: B.*2)) m' ∧ ∀ ho', hash_order_ok ho' → build ho' m' = Ok out.
Proof.
  intros Hrun Hho Hb hos Hlen Hhos.
  destruct (run_logged merger_new (A ++ B) m journal_new [] Hrun reach_new rep_new) as (j & Hr & Hj & Hh & Hl).
  { apply homes_nil. } { intros x Hx. by apply elem_of_nil in Hx. }
  simpl in Hh, Hl. rewrite fmap_app in Hh, Hl. pose proof (reachable_wf m j Hr Hj) as Hwf.
  destruct hos as [|ho1 hos]; [done|]. apply Forall_cons in Hhos as [Hho1 Hhos].
  destruct (rebuild m ho ho1 ho out Hr Hho Hho1 Hho Hb) as (m1 & Hm1 & Hb1).
  assert (reachable m1) as Hr1.
  { replace m1 with (merge ho1 merger_new out).1 by by rewrite Hm1. constructor; [constructor|done]. }
  destruct (merge_inv merger_new journal_new reach_new rep_new ho1 out m1 [] Hho1 Hm1) as (Hv & HwfJ & HJ & Hun).
  set (J := spec_merge journal_new out) in *.
  assert (journal_trns J = out) as EJ.
  { unfold J. rewrite spec_merge_all_new.
    - simpl. apply filter_all. intros tp Htp. by eapply (no_empties m j Hr Hj ho out).
    - intros x Hx. by apply elem_of_nil in Hx.
    - done. }
  pose proof (homes_transfer ho m j out J _ Hho Hj Hwf Hb HwfJ EJ Hh) as HhJ.
  pose proof (logged_transfer ho m j out J _ Hho Hj Hwf Hb HwfJ EJ Hl) as HlJ.
  assert ((zip hos B.*2).*2 = B.*2) as Ez.
  { apply snd_zip. rewrite fmap_length. simpl in Hlen. lia. }
  destruct (replay_run J m1 (zip hos B.*2) (A.*2 ++ B.*2)) as (m' & Hrun' & Hr' & Hj'); [|done..|].
  { apply zip_runs; [rewrite fmap_length; simpl in Hlen; lia|done|]. intros s Hs. apply elem_of_app. by right. }
  rewrite Ez, (replay_last J A.*2 B.*2) in Hj' by done.
  assert (represents m' J) as HJ' by by destruct J.
  assert (m' = m1) as -> by by eapply represents_merger.
  exists m1. split; [by econstructor|].
  intros ho' Hho'. rewrite (build_refines ho' Hho' m1 J HJ). f_equal.
  symmetry. by apply (build_inv ho m1 J).
Qed.

Lemma journals_split E fa fb w tpss w' : journals E w (fa ++ fb) tpss w' →
  ∃ ta tb wm, tpss = ta ++ tb ∧ length ta = length fa ∧ journals E w fa ta wm ∧ journals E wm fb tb w'.
Proof.
  revert w tpss. induction fa as [|f fa IH]; intros w tpss H.
  - exists [], tpss, w. split_and!; [done|done|constructor|done].
  - simpl in H. inversion H as [|? ? l w1 ? tpss1 ? Hr Hs Ht H1]; subst.
    destruct (IH _ _ H1) as (ta & tb & wm & -> & Hlen & Ha & Hb).
    eexists (_ :: ta), tb, wm. split_and!; [done|simpl; by rewrite Hlen| |done]. by econstructor.
Qed.
Lemma journals_world E w paths tpss w' : journals E w (Path <$> paths) tpss w' → ∀ p, same_file w w' p.
Proof.
  remember (Path <$> paths) as fs eqn:Hfs. intros H. revert paths Hfs.
  induction H as [w|w f l wa fs tpss wb Hr Hs Ht H IH]; intros paths Hfs p; [done|].
  destruct paths as [|q paths]; [done|]. rewrite fmap_cons in Hfs. injection Hfs as -> ->.
  inversion Hr; subst. by eapply IH.
Qed.

Lemma c138_command E ho ho2 a b o o2 um2 w tpss w0 es es2 r2 :
  hash_order_ok ho → hash_order_ok ho2 →
  journals E w (Path <$> (a ++ b)) tpss w0 → o ∉ b →
  merge_cmd E ho (Path <$> (a ++ b)) None (Path o) w = (es, Ok tt) →
  (∀ m out, merges ho merger_new tpss [] m → build ho m = Ok out →
     e_parse E (e_print E (into_ledger ho out)) = Some (into_ledger ho out) ∧ ∀ tp, tp ∈ out → comments_writable tp) →
  f_read E (Path o) = false → writable E (Path o) → writable E o2 → (∀ f, um2 = Some f → writable E f) →
  merge_cmd E ho2 (Path <$> (o :: b)) um2 o2 (steps w es) = (es2, r2) →
  r2 = Ok tt ∧ ∃ text, w_files (steps w es) !! o = Some text ∧ holds (steps w es) (steps (steps w es) es2) o2 text.
Proof.
  intros Hho Hho2 Hj Ho Hrun Hrt Hread Hwo Hwo2 Hum2 Hrun2. rewrite fmap_cons in Hrun2.
  assert (∃ m, merges ho merger_new tpss [] m) as [m Hm].
  { destruct (merges_dec ho tpss merger_new) as [(un & m & Hm)|Hn].
    - destruct (decide (un = [])) as [->|Hun]; [by eauto|].
      destruct (c99_journals_failed E ho _ None (Path o) w tpss w0 es (Ok tt) Hho Hj) as [[e ?] _]; [|done|done].
      intros un' m' [Hm' [->|[? ?]]]; [|done]. destruct (merges_fun _ _ _ _ _ _ _ Hm Hm') as [-> _]. done.
    - destruct (c99_journals_failed E ho _ None (Path o) w tpss w0 es (Ok tt) Hho Hj) as [[e ?] _]; [|done|done].
      intros un' m' [Hm' _]. by apply Hn in Hm'. }
  destruct (c99_journals E ho _ None (Path o) w tpss w0 [] m Hho Hj Hm) as (es' & un' & out & Hrun' & Hb & _ & Hw & _ & Hsame);
    [by left|done|done|].
  rewrite Hrun in Hrun'. injection Hrun' as <-. simpl in Hw, Hsame.
  specialize (Hw ltac:(by left)). set (w1 := steps w es) in *.
  destruct (Hrt m out Hm Hb) as [Hparse Hcw]. destruct (journals_sets _ _ _ _ _ Hj) as [Hcl Hsrc].
  assert (Hr : reachable m) by exact (merges_reachable _ _ _ _ _ Hho reach_new Hm).
  assert (Hclean : Forall clean_tp out).
  { destruct (merges_clean ho merger_new tpss [] m journal_new Hho reach_new rep_new) as (j & Hjr & Hc); [split; constructor|done|done|].
    exact (clean_built ho m j out Hho Hr Hjr Hc Hb). }
  assert (Hsrc' : Forall (λ tp, source_tag tp = None) out).
  { exact (merges_headers (λ t, value_tags (ti_comment t) !! s2l "source-file" = None) ho tpss [] m out Hm Hb Hsrc). }
  pose proof (from_into_ledger ho out Hho Hclean Hcw) as HL. set (L := into_ledger ho out) in *.
  rewrite fmap_app in Hj. destruct (journals_split _ _ _ _ _ _ Hj) as (ta & tb & wm & -> & _ & Hja & Hjb).
  assert (Hj2 : journals E w1 (Path o :: (Path <$> b)) (out :: tb) w1).
  { rewrite <- HL. eapply journals_cons.
    - eapply reads_path; [done|exact Hw|exact Hparse].
    - apply ledger_supported.
    - intros t Ht. rewrite Forall_forall in Hsrc'. apply Hsrc'. rewrite <- HL. by apply elem_of_list_fmap_1.
    - eapply journals_paths; [exact Hjb|]. intros p Hp. unfold same_file.
      rewrite (journals_world _ _ _ _ _ Hja p). apply Hsame; [|done]. intros [= ->]. done. }
  pose proof (merges_run _ _ _ _ _ Hho Hm eq_refl) as Hcr. rewrite fmap_app in Hcr.
  destruct (c138_built _ _ m ho out Hcr Hho Hb (replicate (length (out :: tb)) ho2)) as (m2 & Hcr2 & Hb2).
  { by rewrite replicate_length, fmap_length. }
  { apply Forall_replicate. done. }
  assert (Hsnd : ((ho,.) <$> tb).*2 = tb).
  { clear. induction tb as [|s l IH]; [done|]. rewrite !fmap_cons. by f_equal. }
  rewrite Hsnd, zip_const in Hcr2. apply run_merges in Hcr2.
  destruct (c99_journals E ho2 _ um2 o2 w1 _ w1 [] m2 Hho2 Hj2 Hcr2) as (es' & un2 & out2 & Hrun' & Hb' & _ & Hw2 & _ & _);
    [by left|done|done|].
  rewrite Hrun2 in Hrun'. injection Hrun' as <- ->. rewrite Hb2 in Hb' by done. injection Hb' as <-.
  split; [done|]. exists (e_print E L). split; [exact Hw|].
  rewrite (into_ledger_order ho2 ho) in Hw2 by done. apply Hw2. by right; left.
Qed.

Lemma c138_in_place E ho ho2 j statements w tpss w0 es es2 r2 :
  hash_order_ok ho → hash_order_ok ho2 →
  journals E w (Path <$> (j :: statements)) tpss w0 → j ∉ statements →
  merge_cmd E ho (Path <$> (j :: statements)) None (Path j) w = (es, Ok tt) →
  (∀ m out, merges ho merger_new tpss [] m → build ho m = Ok out →
     e_parse E (e_print E (into_ledger ho out)) = Some (into_ledger ho out) ∧ ∀ tp, tp ∈ out → comments_writable tp) →
  f_read E (Path j) = false → writable E (Path j) →
  merge_cmd E ho2 (Path <$> (j :: statements)) None (Path j) (steps w es) = (es2, r2) →
  r2 = Ok tt ∧ is_Some (w_files (steps w es) !! j) ∧
  w_files (steps (steps w es) es2) !! j = w_files (steps w es) !! j.
Proof.
  intros Hho Hho2 Hj Hn Hrun Hrt Hread Hwo Hrun2.
  destruct (c138_command E ho ho2 [j] statements j (Path j) None w tpss w0 es es2 r2) as (-> & text & H1 & H2); try done.
  split; [done|]. split; [by eexists|]. simpl in H2. by rewrite H1, H2.
Qed.

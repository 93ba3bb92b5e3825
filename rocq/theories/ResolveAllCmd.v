(** Resolving all that a run of the merge command handed back, in its files. *)
From Verif Require Import Base Types CommentModel MergeModel CmdModel SpecBase BaseProofs MergeSpec MergeClaims
  MergeProofs MergePending MergeApply MergeBuild MergeClosed MergeLemmas MergePlaces MergeLaws MergeLaws2 MergeLaws3 MergeLaws4 MergeLaws5 MergeReplay
  ResolveClaims MergeResolve Renum RenumInit CmdClaims CmdProofs CmdMerge CmdMerge2 CmdIdem HeaderClaims HeaderLaws CmdPlain WorkCmd ReRun PartsClaims Parts
  PiecesClaims ResolveAllClaims ResolveAll.
From Coq Require Import Lia.
Local Open Scope nat_scope.

Lemma all_inputs_app E w fs sets w1 fs' sets' w2 :
  all_inputs E w fs sets w1 → all_inputs E w1 fs' sets' w2 → all_inputs E w (fs ++ fs') (sets ++ sets') w2.
Proof.
  intros H H'. induction H as [|w f l wa sets fs rest wb Hr Hs Hb H IH]; [done|].
  rewrite <- app_assoc. simpl. eapply inputs_cons; eauto.
Qed.
Definition strip (tp : transaction_postings) : transaction_postings :=
  let c := ti_comment (tp_trn tp) in
  TP (TI (ti_raw (tp_trn tp)) (Comment (lines c) (tags c) (delete (s2l "source-file") (value_tags c)))) (tp_posts tp).
Lemma unsourced_strip tp : unsourced tp (strip tp).
Proof.
  unfold unsourced, strip. cbn [tp_trn tp_posts ti_raw ti_comment lines tags value_tags]. split_and!; try done; [apply lookup_delete|].
  intros k Hk. by apply lookup_delete_ne.
Qed.
Lemma strip_sourced file tp : strip (sourced file tp) = strip tp.
Proof.
  unfold strip, sourced. cbn [tp_trn tp_posts ti_raw ti_comment lines tags value_tags].
  by rewrite delete_insert_delete.
Qed.
Lemma unsourced_strips l : Forall2 unsourced l (strip <$> l).
Proof. induction l as [|x l IH]; [constructor|]. rewrite fmap_cons. constructor; [apply unsourced_strip|done]. Qed.
Lemma strips_sets sets : Forall2 (Forall2 unsourced) sets ((λ s : list transaction_postings, strip <$> s) <$> sets).
Proof. induction sets as [|x l IH]; [constructor|]. rewrite fmap_cons. constructor; [apply unsourced_strips|done]. Qed.
Lemma join_fmap {A B} (f : A → B) (l : list (list A)) : mjoin ((λ x : list A, f <$> x) <$> l) = f <$> mjoin l.
Proof.
  induction l as [|x l IH]; [done|]. rewrite fmap_cons. change (mjoin (?a :: ?b)) with (a ++ mjoin b). by rewrite IH, fmap_app.
Qed.

Lemma c111_cmd E hoA hoB a u o umB o2 w ta un m j esA w2 text l trs esB rB :
  hash_order_ok hoA → hash_order_ok hoB → journals E w (Path <$> a) ta w → steady ta →
  merges hoA merger_new ta un m → represents m j → un ≠ [] →
  f_read E (Path o) = false → f_read E (Path u) = false → (∀ f, writable E f) → o ≠ u →
  (∀ out, build hoA m = Ok out →
     e_parse E (e_print E (into_ledger hoA out)) = Some (into_ledger hoA out) ∧ ∀ tp, tp ∈ out → comments_writable tp) →
  merge_cmd E hoA (Path <$> a) (Some (Path u)) (Path o) w = (esA, Ok tt) →
  same_file (steps w esA) w2 o → w_files w2 !! u = Some text → e_parse E text = Some l → supported l →
  Forall2 unsourced (transaction_postings_of <$> ledger_trns l) trs → resolvable j un trs →
  merge_cmd E hoB [Path o; Path u] umB (Path o2) w2 = (esB, rB) →
  (∃ un', Forall2 unsourced un' un ∧ w_files (steps w esA) !! u = Some (e_print E (into_ledger hoA un'))) ∧
  rB = Ok tt ∧ (∀ p, p ≠ o2 → same_file w2 (steps w2 esB) p) ∧
  ∃ gs m3 j3 out3, mjoin gs ≡ₚ trs ∧ merges hoB m gs [] m3 ∧ represents m3 j3 ∧ all_resolved j un trs j3 ∧
    build hoB m3 = Ok out3 ∧ w_files (steps w2 esB) !! o2 = Some (e_print E (into_ledger hoB out3)).
Proof.
  intros HhoA HhoB Hja Hst HmA HjA Hun Hro Hru Hwr Hou Hrt HrunA Hsame2 Hu Hpu Hsup Htrs Hres HrunB.
  destruct (c99_journals E hoA _ (Some (Path u)) (Path o) w ta w un m HhoA Hja HmA) as (es' & un' & out & Hrun' & Hb & Hun' & Hw & Hwu & _);
    [by eauto|by auto|by auto|].
  rewrite HrunA in Hrun'. injection Hrun' as <-. simpl in Hw, Hwu.
  specialize (Hw ltac:(by right; right)). specialize (Hwu (Path u) eq_refl Hun ltac:(by intros [= ->])). simpl in Hwu.
  split; [by eauto|].
  destruct (Hrt out Hb) as [Hparse Hcw]. destruct (journals_sets _ _ _ _ _ Hja) as [Hcl Hsrc].
  assert (HrA : reachable m) by exact (merges_reachable _ _ _ _ _ HhoA reach_new HmA).
  assert (Hclean : Forall clean_tp out).
  { destruct (merges_clean hoA merger_new ta un m journal_new HhoA reach_new rep_new) as (j' & Hjr & Hc); [split; constructor|done|done|].
    exact (clean_built hoA m j' out HhoA HrA Hjr Hc Hb). }
  assert (Hsrc' : Forall (λ tp, source_tag tp = None) out).
  { exact (merges_headers (λ t, value_tags (ti_comment t) !! s2l "source-file" = None) hoA ta un m out HmA Hb Hsrc). }
  pose proof (from_into_ledger hoA out HhoA Hclean Hcw) as HL. set (L := into_ledger hoA out) in *.
  assert (Hj2 : journals E w2 [Path o] [out] w2).
  { rewrite <- HL. eapply journals_cons.
    - eapply reads_path; [done|by rewrite Hsame2|exact Hparse].
    - apply ledger_supported.
    - intros t Ht. rewrite Forall_forall in Hsrc'. apply Hsrc'. rewrite <- HL. by apply elem_of_list_fmap_1.
    - constructor. }
  destruct (CmdPlain.journals_sets _ _ _ _ _ Hj2) as (so & Hio & Hpo).
  (* the edited file *)
  assert (Hru' : reads E w2 (Path u) l w2) by by eapply reads_path.
  assert (∃ su, by_source (filespec_display E (Path u)) (transaction_postings_of <$> ledger_trns l) su) as [su Hbu].
  { destruct (c26_reads E hoB (Path u) w2 l w2 HhoB Hru' Hsup) as (es & su & Hsu).
    destruct (c26 _ _ _ _ _ _ HhoB Hsu) as (l' & Hr' & _ & Hb' & _). exists su.
    by destruct (reads_fun _ _ _ _ _ _ _ Hru' Hr') as [-> _]. }
  pose proof (inputs_cons _ _ _ _ _ _ _ _ _ Hru' Hsup Hbu (inputs_nil E w2)) as Hiu. rewrite app_nil_r in Hiu.
  pose proof (all_inputs_app _ _ _ _ _ _ _ _ Hio Hiu) as Hall. simpl in Hall.
  set (gs := (λ s : list transaction_postings, strip <$> s) <$> su).
  assert (Htrs' : trs = strip <$> (transaction_postings_of <$> ledger_trns l)).
  { eapply unsourced_all_fun; [exact Htrs|apply unsourced_strips]. }
  assert (Hgs : mjoin gs ≡ₚ trs).
  { unfold gs. rewrite join_fmap. etrans; [apply fmap_Permutation, (by_source_perm _ _ _ Hbu)|].
    rewrite Htrs'. generalize (transaction_postings_of <$> ledger_trns l). intros k.
    induction k as [|x k IH]; [done|]. rewrite !fmap_cons, strip_sourced. by constructor. }
  destruct (resolve_all merger_new hoA ta un m j trs gs hoB reach_new HhoA HmA HjA HhoB Hres Hgs) as (m3 & j3 & Hm3 & Hj3 & Hal & _).
  assert (dates_agree j) as HdA.
  { rewrite (merges_after _ _ _ _ _ HmA) in HjA.
    pose proof (snd_const hoA ta) as Esnd.
    destruct (steady_inv ((hoA,.) <$> ta) j) as [? _]; [|by rewrite Esnd|done|done].
    apply Forall_fmap, Forall_forall. done. }
  destruct (rebuild m hoA hoB hoB out HrA HhoA HhoB HhoB Hb) as (m0 & Hm0 & _).
  pose proof (linked_init m j hoA hoB out m0 [] HrA HjA HdA HhoA HhoB Hb Hm0) as Hlink.
  destruct (linked_merges hoB hoB gs [] m3 m Hm3 m0 HhoB HhoB Hlink) as (un4 & m4 & Hm4 & Hl4 & Hu4).
  apply Forall2_nil_inv_l in Hu4. subst un4.
  assert (HmB : merges hoB merger_new (filter (λ tps, tps ≠ []) [out] ++ gs) [] m4).
  { assert (merges hoB merger_new ([out] ++ gs) ([] ++ []) m4) as H by exact (merges_cons _ _ _ _ _ _ _ _ Hm0 Hm4).
    destruct (decide (out = [])) as [->|Hne].
    - rewrite filter_cons_False by (intros ?; done). simpl in H. inversion H as [|? ? mx ux ? unx ? Ex Hx]; subst.
      rewrite merge_none in Ex. injection Ex as <- <-. simpl in *. by subst unx.
    - rewrite filter_cons_True by done. exact H. }
  destruct (c99_done E hoB _ umB (Path o2) w2 _ w2 _ [] m4 HhoB Hall (Forall2_app Hpo (strips_sets su)) HmB)
    as (es2 & un2 & outB & Hr & HbB & _ & HwB & _ & HsB); [by left|by auto|by auto|].
  rewrite HrunB in Hr. injection Hr as <- ->. simpl in HwB, HsB. split; [done|]. split.
  { intros p Hp. apply HsB; [by intros [= ->]|done]. }
  exists gs, m3, j3, outB. split_and!; try done.
  - by rewrite (linked_build m3 m4 hoB hoB) by done.
  - apply HwB. by right; left.
Qed.

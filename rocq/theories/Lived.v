(** Journals with any history of merges and edits. *)
From stdpp Require Import list gmap.
From Verif Require Import Base Types CommentModel MergeModel SpecBase BaseProofs MergeSpec MergeClaims
  MergeProofs MergePending MergeApply MergeBuild MergeClosed MergeLemmas MergePlaces MergeLaws MergeLaws2
  MergeLaws3 MergeLaws4 MergeReplay MergeLaws5 EditClaims MergeEdit WindowClaims MergeDays RulesEdit StmtTwin KeptClaims Kept
  HistoryClaims History HistoryStep LivedClaims.
From Coq Require Import Lia.
Local Open Scope nat_scope.

Lemma journal_ok_perm l k : l ≡ₚ k → journal_ok l → journal_ok k.
Proof.
  intros Hp (H1 & H2 & H3). assert (all_posts l ≡ₚ all_posts k) as Ha by (unfold all_posts; by rewrite Hp). split_and!.
  - intros p Hin. apply H1. by rewrite Ha.
  - by eapply fps_distinct_perm.
  - intros tp Htp. apply H3. by rewrite Hp.
Qed.
Lemma journal_ok_app_l l k : journal_ok (l ++ k) → journal_ok l.
Proof.
  intros (H1 & H2 & H3). rewrite all_posts_app in *. split_and!.
  - intros p Hp. apply H1, elem_of_app. by left.
  - eapply fps_distinct_sublist; [|exact H2]. by apply sublist_inserts_r.
  - intros tp Htp. apply H3, elem_of_app. by left.
Qed.
Lemma journal_ok_part T S : T ⊆+ S → journal_ok S → journal_ok T.
Proof. intros [Z HZ]%submseteq_Permutation HS. eapply journal_ok_app_l, journal_ok_perm; [exact HZ|done]. Qed.
Lemma edited_part T S : T ⊆+ S → edited T S.
Proof.
  intros [Z HZ]%submseteq_Permutation. eapply edited_trans; [|apply edited_perm; symmetry; exact HZ].
  exists (λ a b, (a, b)). split_and!; cbn [fst snd].
  - intros a b tp p Ha Hb. exists tp, p. split_and!; [by apply lookup_app_l_Some|done..].
  - done.
  - intros. by simplify_eq.
Qed.
(** The journal has a set once. *)
Lemma edited_once T J tp : journal_ok T → journal_ok J → edited T J → tp ∈ T → has_once J tp.
Proof.
  intros HT HJ (f & F1 & F2 & F3) Htp. pose proof Htp as [a Ha]%elem_of_list_lookup.
  destruct HT as (_ & _ & Hne). specialize (Hne tp Htp).
  destruct (tp_posts tp) as [|p0 l] eqn:Ep; [done|]. assert (tp_posts tp !! 0 = Some p0) as H0 by by rewrite Ep.
  destruct (F1 a 0 tp p0 Ha H0) as (t & q0 & Ht & _). exists (f a 0).1, t. split; [done|].
  intros p [b Hb]%elem_of_list_lookup. destruct (F1 a b tp p Ha Hb) as (t' & q & Ht' & Hq & Hfp).
  rewrite (F2 a b 0 tp p p0 Ha Hb H0), Ht in Ht'. injection Ht' as <-. exists (f a b).2, q. split_and!; [done..|].
  intros a' t' b' q' Ha' Hb' (g & G1 & G2). eapply (same_place J); [apply HJ|done..|]. exists g. split; [done|by apply Hfp].
Qed.

(** ** Merging what the journal has *)
Lemma trns_ok m j : reachable m → represents m j → journal_ok (journal_trns j).
Proof.
  intros Hr Hj. eapply journal_ok_perm; [|eapply (built_ok m default_order); [done|apply default_order_ok|]].
  - apply (stable_sort_perm (by_key tp_date)).
  - apply build_refines; [apply default_order_ok|done].
Qed.
Lemma wf_of m j : reachable m → represents m j → journal_wf j.
Proof. intros Hr Hj. destruct (reachable_represents m Hr) as (j' & Hj' & Hwf). by rewrite (represents_journal m j j'). Qed.
Section again.
  Context (S : list transaction_postings) (j : journal).
  Context (HS : journal_ok S) (HJ : journal_ok (journal_trns j)) (Hwf : journal_wf j) (Hed : edited S (journal_trns j)).

  Lemma all_known tp : tp ∈ S → known_to j tp.
  Proof using HS HJ Hwf Hed.
    intros [a Ha]%elem_of_list_lookup. destruct (spots (journal_trns j) j HJ Hwf eq_refl S) as (f & F1 & F2 & _); [apply HS|done|].
    destruct (tp_posts tp) as [|p0 l] eqn:Ep. { exists 0. rewrite Ep. by intros p Hp%elem_of_nil. }
    destruct (F1 a 0 tp p0 (tp_date tp) Ha) as (x0 & _ & Hx0); [by rewrite Ep|]. exists (jp_trn x0).
    intros p [b Hb]%elem_of_list_lookup. destruct (F1 a b tp p (tp_date tp) Ha Hb) as (x & E & Hx). exists (f a b), x. split_and!; [done..|].
    eapply (F2 a b 0); try done. by rewrite Ep.
  Qed.
  Lemma again_acceptable : acceptable j S.
  Proof using HS HJ Hwf Hed.
    pose proof HS as (H1 & H2 & H3).
    destruct (spots (journal_trns j) j HJ Hwf eq_refl S) as (f & F1 & F2 & F3); [done..|].
    split; [done|done| | |].
    - intros p (tp & Hp & Htp)%elem_of_list_bind Hc%conflicting_spec.
      assert (lookup_posting j (tp_date tp) p = VConflict) as E.
      { unfold lookup_posting. destruct (fp_hits j p) as [|? [|? ?]]; simpl in Hc; [lia..|done]. }
      destruct (all_known tp Htp) as [a Ha]. destruct (Ha p Hp) as (i & x & E' & _). by rewrite E in E'.
    - intros tp p q i k x y Htp _ Hp Hq Hi%selects_spec Hk%selects_spec Hx Hy.
      destruct (all_known tp Htp) as [a Ha]. destruct (Ha p Hp) as (i' & x' & E & Hx' & <-), (Ha q Hq) as (k' & y' & E' & Hy' & E'').
      rewrite E in Hi. rewrite E' in Hk. by simplify_eq.
    - intros a b a' b' tp tp' p p' i Ha Hb Ha' Hb' _ _ Hi%selects_spec Hk%selects_spec.
      destruct (F1 a b tp p (tp_date tp) Ha Hb) as (x & Ei & _), (F1 a' b' tp' p' (tp_date tp') Ha' Hb') as (y & Ek & _).
      rewrite Ei in Hi. rewrite Ek in Hk. injection Hi as <-. injection Hk as Hk. symmetry in Hk. by eapply F3.
  Qed.
End again.
Lemma again_step m j ho S : reachable m → represents m j → hash_order_ok ho → journal_ok S → edited S (journal_trns j) →
  ∃ m' j', merge ho m S = (m', Ok []) ∧ reachable m' ∧ represents m' j' ∧ Forall2 trn_refines (journal_trns j) (journal_trns j').
Proof.
  intros Hr Hj Hho HS Hed. pose proof (trns_ok m j Hr Hj) as HJ. pose proof (wf_of m j Hr Hj) as Hwf.
  destruct (proj2 (merge_ok_iff m j Hr Hj ho S Hho)) as (m' & un & Hm); [by apply again_acceptable|].
  destruct (merge_inv m j Hr Hj ho S m' un Hho Hm) as (Hv & Hwf' & Hj' & Hun).
  assert (filter (λ tp, left_out j tp = true) S = []) as El.
  { apply filter_none. intros tp Htp Hl%lo_of_spec. apply Hl. split; [by apply HS|]. intros p Hp Hm'%ambiguous_is.
    destruct (all_known S j HS HJ Hwf Hed tp Htp) as [a Ha]. destruct (Ha p Hp) as (i & x & E & _). by rewrite E in Hm'. }
  rewrite El in Hun. apply Forall2_nil_inv_l in Hun as ->. exists m', (spec_merge j S). split_and!; [done| |done|].
  - replace m' with (merge ho m S).1 by by rewrite Hm. by constructor.
  - destruct (grown_trns j (spec_merge j S) []) as (old & E & HF); [apply Hwf| |].
    + apply grown_all_known; [|apply grown_refl]. intros tp Htp. split; [by apply HS|by apply (all_known S j)].
    + rewrite app_nil_r in E. by rewrite E.
Qed.
Lemma trn_refines_trans l k n : Forall2 trn_refines l k → Forall2 trn_refines k n → Forall2 trn_refines l n.
Proof.
  intros H. revert n. induction H as [|x y l k [E Hr] H IH]; intros n; inversion 1 as [|? z ? n' [E' Hr'] H']; subst; constructor.
  - split; [congruence|]. clear -Hr Hr'. revert Hr'. generalize (tp_posts z). induction Hr as [|? ? ? ? Hx HF IH]; intros ps; inversion 1; subst; constructor.
    + by eapply post_refines_trans.
    + by apply IH.
  - by apply IH.
Qed.
Lemma again_steps Ss : ∀ m j hos, reachable m → represents m j → Forall hash_order_ok hos → length hos = length Ss →
  (∀ S, S ∈ Ss → journal_ok S ∧ edited S (journal_trns j)) →
  ∃ m' j', clean_run m (zip hos Ss) m' ∧ reachable m' ∧ represents m' j' ∧ Forall2 trn_refines (journal_trns j) (journal_trns j').
Proof.
  induction Ss as [|S Ss IH]; intros m j [|ho hos] Hr Hj Hhos Hl H; try done.
  - exists m, j. split_and!; [constructor|done..|]. clear. induction (journal_trns j); constructor; [|done]. split; [done|].
    induction (tp_posts _); constructor; [apply post_refines_refl|done].
  - apply Forall_cons in Hhos as [Hho Hhos]. destruct (H S) as [HS He]; [left|].
    destruct (again_step m j ho S Hr Hj Hho HS He) as (m1 & j1 & E1 & Hr1 & Hj1 & HF1).
    destruct (IH m1 j1 hos Hr1 Hj1 Hhos) as (m2 & j2 & E2 & Hr2 & Hj2 & HF2); [simpl in Hl; lia| |].
    { intros S' HS'. destruct (H S') as [? He']; [by right|]. split; [done|]. eapply edited_trans; [exact He'|by apply edited_refined]. }
    exists m2, j2. split_and!; [|done..|by eapply trn_refines_trans]. by eapply run_cons.
Qed.

(** ** Histories *)
Lemma handed_elem back S x tp : S !! x = Some tp → back x = true → tp ∈ handed back S.
Proof.
  intros Hx Hb. unfold handed. apply elem_of_list_join. exists [tp]. split; [by apply elem_of_list_singleton|].
  apply elem_of_list_lookup. exists x. by rewrite list_lookup_imap, Hx; simpl; rewrite Hb.
Qed.
Lemma not_back back S un T x tp : Forall2 returned_unmerged (handed back S) un → (∀ p, p ∈ all_posts S → mergeable p) →
  taken S un T → S !! x = Some tp → tp ∈ T → back x = false.
Proof.
  intros HF Hm [_ HT] Hx Htp. destruct (back x) eqn:Eb; [|done]. exfalso.
  destruct (HT tp Htp) as [Hne Hno]. pose proof (handed_elem back S x tp Hx Eb) as [i Hi]%elem_of_list_lookup.
  destruct (Forall2_lookup_l _ _ _ _ _ HF Hi) as (u & Hu & _ & Hps). destruct (tp_posts tp) as [|p l] eqn:Ep; [done|].
  inversion Hps as [|? q ? ? (_ & _ & _ & Ht)]; subst.
  destruct (Hm p) as [[f Hf] _]. { eapply elem_all_posts; [by eapply elem_of_list_lookup_2|]. rewrite Ep. left. }
  apply (Hno u p q); [by eapply elem_of_list_lookup_2|left| |].
  { match goal with H : _ :: _ = tp_posts u |- _ => rewrite <- H end. left. }
  exists f. split; [|done]. destruct Hf as [Hf1 Hf2]. split; [done|]. apply Ht. by left.
Qed.
Lemma placed sets back loc out r S T (f : nat → nat) : accounts_for sets back loc out → sets !! r = Some S →
  (∀ a tp, T !! a = Some tp → S !! f a = Some tp ∧ back r (f a) = false) → (∀ a a', f a = f a' → a = a') → edited T out.
Proof.
  intros Haf HS Hf Hinj. assert (∀ a tp, T !! a = Some tp → kept_at sets back r (f a) tp) as Hk.
  { intros a tp [H1 H2]%Hf. by exists S. }
  exists (λ a b, loc r (f a) b). split_and!.
  - intros a b tp p Ha Hb. destruct (af_in _ _ _ _ Haf r (f a) b tp p (Hk a tp Ha) Hb) as (tp' & q & H1 & H2).
    exists tp', q. split_and!; [done..|]. intros g [Hg Ht]. split; [done|].
    pose proof (af_says _ _ _ _ Haf _ _ _ _ H1 H2) as Hc. apply (cp_tags _ _ Hc).
    + intros ->. apply is_fingerprint_spec in Hg. revert Hg. by vm_compute.
    + apply Exists_exists. exists p. split; [|done]. rewrite <- surjective_pairing.
      destruct (Hf a tp Ha) as [HSa Hba]. unfold merged_at. apply elem_of_list_join. eexists. split; cycle 1.
      { apply elem_of_list_lookup. exists r. rewrite list_lookup_imap, HS. reflexivity. }
      apply elem_of_list_fmap. exists (f a, b, p). split; [done|]. apply elem_of_list_filter. split; [done|].
      unfold numbered. apply elem_of_list_join. eexists. split; cycle 1.
      { apply elem_of_list_lookup. exists (f a). rewrite list_lookup_imap, HSa. reflexivity. }
      apply elem_of_list_lookup. exists b. by rewrite list_lookup_imap, Hb.
  - intros a b b' tp p p' Ha Hb Hb'. exact (af_trn _ _ _ _ Haf r (f a) tp b p b' p' (Hk a tp Ha) Hb Hb').
  - intros a b a' b' tp p tp' p' Ha Hb Ha' Hb' E.
    destruct (af_one _ _ _ _ Haf r (f a) b tp p (f a') b' tp' p') as [E1 ->]; eauto.
Qed.
Lemma run_sets_ok m runs m' : merge_run m runs m' → reachable m → reachable m' ∧
  ∀ rn, rn ∈ runs → (∀ p, p ∈ all_posts (run_set rn) → mergeable p) ∧ fps_distinct (all_posts (run_set rn)).
Proof.
  induction 1 as [m|ho s un m m1 runs m2 Hho Hm Hrun IH]; intros Hr; [split; [done|by intros ? ?%elem_of_nil]|].
  assert (reachable m1) as Hr1. { replace m1 with (merge ho m s).1 by by rewrite Hm. by constructor. }
  destruct (IH Hr1) as [? H]. split; [done|]. intros rn [->|Hin]%elem_of_cons; [|by apply H].
  destruct (reachable_represents m Hr) as (j & Hj & _).
  destruct (proj1 (merge_ok_iff m j Hr Hj ho s Hho)) as [H1 H2 _ _ _]; [by eauto|]. done.
Qed.
Lemma taken_ok S un T : (∀ p, p ∈ all_posts S → mergeable p) → fps_distinct (all_posts S) → taken S un T → journal_ok T.
Proof.
  intros H1 H2 [HT Hne]. pose proof HT as [Z HZ]%submseteq_Permutation.
  assert (all_posts S ≡ₚ all_posts T ++ all_posts Z) as Ha. { rewrite <- all_posts_app. unfold all_posts. by rewrite HZ. }
  split_and!.
  - intros p Hp. apply H1. rewrite Ha. apply elem_of_app. by left.
  - eapply fps_distinct_sublist; [|eapply fps_distinct_perm; [exact Ha|done..]]. by apply sublist_inserts_r.
  - intros tp Htp. by apply Hne.
Qed.
Lemma lived_inv sets J : lived sets J → journal_ok J ∧ ∀ T, T ∈ sets → journal_ok T ∧ edited T J.
Proof.
  induction 1 as [J HJ|sets J J' _ [HJ IH] Hed HJ'|sets J ho un runs m hb out Ts _ [HJ IH] Hhb Hrun Hb HT].
  - split; [done|]. by intros T HT%elem_of_nil.
  - split; [done|]. intros T [? ?]%IH. split; [done|by eapply edited_trans].
  - destruct (run_sets_ok _ _ _ Hrun reach_new) as [Hr Hsets].
    destruct (history_accounts _ _ hb out Hrun Hhb Hb) as (back & loc & Haf & Hback).
    split; [by eapply built_ok|]. intros T [HT0|[k Hk]%elem_of_list_lookup]%elem_of_app.
    + destruct (IH T HT0) as [HTok He]. split; [done|]. eapply edited_trans; [exact He|].
      inversion Hrun as [|? ? ? ? m1 ? ? Hho Hm Hrest]; subst.
      destruct (journal_loaded_dated ho J Hho HJ) as (m1' & j & Hm' & _). rewrite Hm in Hm'. injection Hm' as _ ->.
      pose proof (Hback 0 _ eq_refl) as HF. apply Forall2_nil_inv_r in HF. cbn [run_set fst snd] in HF.
      apply (placed _ back loc out 0 J J id Haf); [done| |done]. intros a tp Ha. split; [done|]. unfold id.
      destruct (back 0 a) eqn:Eb; [|done]. pose proof (handed_elem (back 0) J a tp Ha Eb) as Hin. rewrite HF in Hin. by apply elem_of_nil in Hin.
    + destruct (Forall2_lookup_r _ _ _ _ _ HT Hk) as (rn & Hrn & Htk).
      destruct (Hsets rn) as [Hm Hd]; [right; by eapply elem_of_list_lookup_2|]. split; [by eapply taken_ok|].
      pose proof (proj1 Htk) as [Z HZ]%submseteq_Permutation.
      apply symmetry, Permutation_inj in HZ as (_ & f & Hf & Hl).
      apply (placed _ back loc out (S k) (run_set rn) T f Haf).
      * rewrite list_lookup_fmap. change (((ho, J, un) :: runs) !! S k) with (runs !! k). by rewrite Hrn.
      * intros a tp Ha. assert (run_set rn !! f a = Some tp) as Hx. { rewrite <- Hl. by apply lookup_app_l_Some. }
        split; [done|]. eapply not_back; [by apply (Hback (S k) rn)|exact Hm|exact Htk|exact Hx|by eapply elem_of_list_lookup_2].
      * intros a a' E. by apply Hf.
Qed.

(** C136 *)
Lemma lived_once sets J T tp : lived sets J → T ∈ sets → tp ∈ T → has_once J tp.
Proof. intros [HJ H]%lived_inv HT Htp. destruct (H T HT) as [H1 H2]. by eapply edited_once. Qed.
Lemma lived_again sets J Ss ho hos : lived sets J → (∀ S, S ∈ Ss → ∃ T, T ∈ sets ∧ S ⊆+ T) →
  hash_order_ok ho → Forall hash_order_ok hos → length hos = length Ss →
  ∃ m J', clean_run merger_new ((ho, J) :: zip hos Ss) m ∧ Forall2 trn_refines J J' ∧
    ∀ hb, hash_order_ok hb → build hb m = Ok (stable_sort (by_key tp_date) J').
Proof.
  intros [HJ H]%lived_inv HSs Hho Hhos Hlen.
  destruct (journal_loaded_dated ho J Hho HJ) as (m1 & j & Hm1 & Hr & Hj & Hwf & EJ & _).
  destruct (again_steps Ss m1 j hos Hr Hj Hhos Hlen) as (m2 & j2 & Hrun & Hr2 & Hj2 & HF).
  { intros S HS. destruct (HSs S HS) as (T & HT & Hsub). destruct (H T HT) as [H1 H2]. split; [by eapply journal_ok_part|].
    rewrite EJ. eapply edited_trans; [by apply edited_part|done]. }
  rewrite EJ in HF. exists m2, (journal_trns j2). split_and!; [|done|].
  - by eapply run_cons.
  - intros hb Hhb. by apply build_refines.
Qed.

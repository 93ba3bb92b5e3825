(** Proofs for C140: inputs that do not concern each other, in any order. *)
From Verif Require Import Base Types CommentModel MergeModel SpecBase BaseProofs MergeSpec MergeClaims
  MergeProofs MergePending MergeApply MergeBuild MergeClosed MergeLemmas MergePlaces MergeLaws MergeLaws2
  MergeLaws3 MergeLaws4 MergeReplay CommentLaws CmdModel CmdClaims CmdProofs CmdMerge CmdMerge2 CmdIdem HeaderClaims CmdPlain WorkCmd ReRun
  AsideClaims Aside Aside2 AnyOrderClaims.
From Coq Require Import Lia.
Local Open Scope nat_scope.

Lemma apart_tail s sets : apart (s :: sets) → apart sets ∧ Forall (unconcerned s) sets.
Proof.
  intros H. split.
  - intros i k a b Hi Hk Hne. apply (H (S i) (S k)); [done..|lia].
  - apply Forall_forall. intros t [k Hk]%elem_of_list_lookup. by apply (H 0 (S k)).
Qed.
Lemma any_order ho sets : hash_order_ok ho → apart sets → each_merges sets →
  ∃ m, merges ho merger_new sets [] m ∧ ∀ hb, hash_order_ok hb → ∃ out, build hb m = Ok out ∧ all_in_order sets out.
Proof.
  intros Hho. induction sets as [|s sets IH]; intros Ha He.
  - exists merger_new. split; [constructor|]. intros hb Hhb. exists []. split.
    + by rewrite (build_refines hb Hhb merger_new journal_new rep_new).
    + split; [constructor|done].
  - destruct (apart_tail _ _ Ha) as [Ha' Hun]. destruct IH as (m & Hm & Hb); [done|by intros t Ht; apply He; right|].
    destruct (He s) as (h & m0 & Hh & H0); [left|].
    assert (∃ m1, merge ho merger_new s = (m1, Ok [])) as [m1 H1].
    { destruct (merge ho merger_new s) as [m1 r] eqn:E.
      destruct (merge_inv merger_new journal_new reach_new rep_new h s m0 [] Hh H0) as (Hv & _ & _ & Hu0).
      pose proof (reachable_wf _ _ reach_new rep_new) as Hwf.
      destruct (merge_cases ho merger_new journal_new s m1 r Hho rep_new Hwf E) as [(_ & _ & _ & u & -> & Hu)|(Hn & _)]; [|done].
      inversion Hu0 as [E0|]. rewrite <- E0 in Hu. inversion Hu; subst. eauto. }
    destruct (c139_files s sets ho ho ho m1) as [H2 _]; [done..|]. destruct (H2 [] m Hm) as (un' & m' & Hm' & HF & Hbuild).
    inversion HF; subst. exists m'. split; [by apply (merges_first ho merger_new s m1)|].
    intros hb Hhb. destruct (Hb hb Hhb) as (out & Hout & Hs & Hd). destruct (Hbuild hb hb out Hhb Hhb Hout) as (out' & Hout' & Hs' & Hd').
    exists out'. split; [done|]. split; [done|]. intros d. rewrite Hd', Hd. done.
Qed.

Lemma all_in_order_perm sets l : all_in_order sets l → l ≡ₚ mjoin sets.
Proof.
  intros [_ H].
  assert (∀ (k1 k2 : list transaction_postings), (∀ d, filter (λ tp, tp_date tp = d) k1 ≡ₚ filter (λ tp, tp_date tp = d) k2) → k1 ≡ₚ k2) as G.
  { clear. intros k1. induction k1 as [|x k1 IH]; intros k2 H.
    - destruct k2 as [|y k2]; [done|]. specialize (H (tp_date y)). rewrite filter_nil, filter_cons_True in H by done.
      by apply Permutation_nil_l in H.
    - assert (x ∈ k2) as Hx.
      { specialize (H (tp_date x)). assert (x ∈ filter (λ tp, tp_date tp = tp_date x) (x :: k1)) as Hin.
        { apply elem_of_list_filter. split; [done|left]. }
        rewrite H in Hin. by apply elem_of_list_filter in Hin as [_ ?]. }
      apply elem_of_Permutation in Hx as [k Hk]. rewrite Hk. constructor. apply IH. intros d. specialize (H d).
      rewrite Hk in H. destruct (decide (tp_date x = d)) as [E|E].
      + rewrite !filter_cons_True in H by done. by apply Permutation_cons_inv in H.
      + by rewrite !filter_cons_False in H by done. }
  apply G. intros d. rewrite H. clear. induction sets as [|s sets IH]; [done|]. rewrite fmap_cons. 
  change (mjoin (?a :: ?b)) with (a ++ mjoin b). by rewrite filter_app, IH.
Qed.
Lemma all_in_order_own sets sets' l l' : own_dates sets → sets ≡ₚ sets' → all_in_order sets l → all_in_order sets' l' → l = l'.
Proof.
  intros Ho Hp [Hs Hd] [Hs' Hd']. apply (sorted_classes_unique tp_date); [done..|]. intros d. rewrite Hd, Hd'. clear -Ho Hp.
  assert (∀ (k : list (list transaction_postings)), (∀ i j a b, k !! i = Some a → k !! j = Some b → a ≠ [] → b ≠ [] → i = j) →
    ∀ k', k ≡ₚ k' → mjoin k = mjoin k') as G.
  { clear. intros k Hone k' Hp. revert Hone. induction Hp as [|x k k' Hp IH|x y k|k1 k2 k3 H1 IH1 H2 IH2]; intros Hone.
    - done.
    - change (mjoin (x :: ?b)) with (x ++ mjoin b). rewrite IH; [done|]. intros i j a b Hi Hj Ha Hb.
      assert (S i = S j) by by apply (Hone (S i) (S j) a b). lia.
    - change (mjoin (?a :: ?b)) with (a ++ mjoin b). change (mjoin (?a :: k)) with (a ++ mjoin k).
      destruct x as [|p x]; [done|]. destruct y as [|q y]; [done|]. by assert (0 = 1) by by apply (Hone 0 1 (q :: y) (p :: x)).
    - rewrite IH1 by done. apply IH2. intros i j a b Hi Hj Ha Hb.
      symmetry in H1. apply Permutation_inj in H1 as [_ (f & Hf & Hl)]. apply Hf. rewrite Hl in Hi, Hj. by eapply Hone. }
  apply G; [|by rewrite Hp]. intros i k a b Hi Hk Ha Hb. rewrite list_lookup_fmap in Hi, Hk.
  destruct (sets !! i) as [s|] eqn:Es; [|done]. destruct (sets !! k) as [t|] eqn:Et; [|done]. injection Hi as <-. injection Hk as <-.
  destruct (filter _ s) as [|x fs] eqn:Fs; [done|]. destruct (filter _ t) as [|y ft] eqn:Ft; [done|].
  assert (x ∈ filter (λ tp, tp_date tp = d) s) as [Hx1 Hx2]%elem_of_list_filter by (rewrite Fs; left).
  assert (y ∈ filter (λ tp, tp_date tp = d) t) as [Hy1 Hy2]%elem_of_list_filter by (rewrite Ft; left).
  eapply (Ho i k s t x y); try done. congruence.
Qed.

Lemma apart_perm sets sets' : sets ≡ₚ sets' → apart sets → apart sets'.
Proof.
  intros Hp Ha i k s t Hi Hk Hne. symmetry in Hp. apply Permutation_inj in Hp as [_ (f & Hf & Hl)].
  rewrite Hl in Hi, Hk. eapply (Ha (f i) (f k)); try done. by intros E%Hf.
Qed.
Lemma any_order_twice ho ho' sets sets' : hash_order_ok ho → hash_order_ok ho' → apart sets → each_merges sets → sets ≡ₚ sets' →
  ∃ m m', merges ho merger_new sets [] m ∧ merges ho' merger_new sets' [] m' ∧
    ∀ hb hb', hash_order_ok hb → hash_order_ok hb' → ∃ out out', build hb m = Ok out ∧ build hb' m' = Ok out' ∧
      out ≡ₚ out' ∧ (own_dates sets → out' = out).
Proof.
  intros Hho Hho' Ha He Hp.
  destruct (any_order ho sets Hho Ha He) as (m & Hm & Hb).
  destruct (any_order ho' sets' Hho' (apart_perm _ _ Hp Ha)) as (m' & Hm' & Hb').
  { intros s Hs. apply He. by rewrite Hp. }
  exists m, m'. split_and!; [done..|]. intros hb hb' Hhb Hhb'. destruct (Hb hb Hhb) as (out & Ho & Hin). destruct (Hb' hb' Hhb') as (out' & Ho' & Hin').
  exists out, out'. split_and!; [done..| |].
  - rewrite (all_in_order_perm _ _ Hin), (all_in_order_perm _ _ Hin'). by rewrite Hp.
  - intros Hown. symmetry. by eapply all_in_order_own.
Qed.

Lemma journals_paths_perm E w paths paths' : paths ≡ₚ paths' → ∀ tpss w0, journals E w (Path <$> paths) tpss w0 →
  ∃ tpss', tpss ≡ₚ tpss' ∧ journals E w (Path <$> paths') tpss' w.
Proof.
  assert (∀ p paths tpss w0, journals E w (Path <$> (p :: paths)) tpss w0 → ∃ l tpss', tpss = (transaction_postings_of <$> ledger_trns l) :: tpss' ∧
    reads E w (Path p) l w ∧ supported l ∧ (∀ t, t ∈ ledger_trns l → source_tag (transaction_postings_of t) = None) ∧ journals E w (Path <$> paths) tpss' w0) as Hinv.
  { intros p ps tpss w0 H. rewrite fmap_cons in H. inversion H as [|? ? l w1 ? tpss' ? Hr Hs Ht H1]; subst.
    assert (w1 = w) as -> by by inversion Hr. eauto 8. }
  assert (∀ p ps l tpss', reads E w (Path p) l w → supported l → (∀ t, t ∈ ledger_trns l → source_tag (transaction_postings_of t) = None) →
    journals E w (Path <$> ps) tpss' w → journals E w (Path <$> (p :: ps)) ((transaction_postings_of <$> ledger_trns l) :: tpss') w) as Hcons.
  { intros p ps l tpss' Hr Hs Ht H. rewrite fmap_cons. by econstructor. }
  induction 1 as [|p ps ps' Hp IH|p q ps|p1 p2 p3 H1 IH1 H2 IH2]; intros tpss w0 H.
  - inversion H; subst. exists []. split; [done|constructor].
  - apply Hinv in H as (l & tpss' & -> & Hr & Hs & Ht & H). destruct (IH _ _ H) as (t2 & Hp2 & H2).
    eexists (_ :: t2). split; [by constructor|]. by apply Hcons.
  - apply Hinv in H as (l & t1 & -> & Hr & Hs & Ht & H). apply Hinv in H as (l2 & t2 & -> & Hr2 & Hs2 & Ht2 & H).
    eexists (_ :: _ :: t2). split; [apply perm_swap|]. apply Hcons; [done..|]. apply Hcons; [done..|].
    assert (∀ ps t2 wx w0, journals E wx (Path <$> ps) t2 w0 → w0 = wx) as Hw.
    { clear. induction ps as [|p ps IH]; intros t2 wx w0 H; inversion H as [|? ? ? w1 ? ? ? Hr]; subst; [done|].
      inversion Hr; subst. by eapply IH. }
    by rewrite (Hw _ _ _ _ H) in H.
  - destruct (IH1 _ _ H) as (t2 & Hp2 & Ht2). destruct (IH2 _ _ Ht2) as (t3 & Hp3 & Ht3). exists t3. split; [by rewrite Hp2|done].
Qed.
Lemma any_order_command E ho ho' paths paths' o o' w w0 tpss es es' r r' : hash_order_ok ho → hash_order_ok ho' →
  journals E w (Path <$> paths) tpss w0 → paths ≡ₚ paths' → apart tpss → each_merges tpss → own_dates tpss →
  writable E o → writable E o' →
  merge_cmd E ho (Path <$> paths) None o w = (es, r) → merge_cmd E ho' (Path <$> paths') None o' w = (es', r') →
  r = Ok tt ∧ r' = Ok tt ∧ ∃ text, holds w (steps w es) o text ∧ holds w (steps w es') o' text.
Proof.
  intros Hho Hho' Hj Hp Ha He Hown Ho Ho' Hrun Hrun'.
  destruct (journals_paths_perm E w paths paths' Hp tpss w0 Hj) as (tpss' & Hpt & Hj').
  destruct (any_order_twice ho ho' tpss tpss' Hho Hho' Ha He Hpt) as (m & m' & Hm & Hm' & Hb).
  destruct (ran _ _ _ _ _ _ _ _ _ Hho Hj Ho Hrun) as [Hr Hout]. destruct (ran _ _ _ _ _ _ _ _ _ Hho' Hj' Ho' Hrun') as [Hr' Hout'].
  split; [apply Hr; eauto|]. split; [apply Hr'; eauto|].
  destruct (Hout m Hm) as (out & Hbo & Hh). destruct (Hout' m' Hm') as (out' & Hbo' & Hh').
  destruct (Hb ho ho' Hho Hho') as (x & y & Hx & Hy & _ & Heq). rewrite Hbo in Hx. rewrite Hbo' in Hy. injection Hx as <-. injection Hy as <-.
  specialize (Heq Hown). subst out'. exists (e_print E (into_ledger ho out)). split; [done|]. by rewrite (into_ledger_order ho ho') by done.
Qed.

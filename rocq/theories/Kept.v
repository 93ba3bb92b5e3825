(** Journals kept over time. *)
From stdpp Require Import list gmap.
From Verif Require Import Base Types CommentModel MergeModel SpecBase BaseProofs MergeSpec MergeClaims
  MergeProofs MergePending MergeApply MergeBuild MergeClosed MergeLemmas MergePlaces MergeLaws MergeLaws2
  MergeLaws3 MergeLaws4 MergeReplay MergeLaws5 EditClaims MergeEdit WindowClaims MergeDays RulesEdit KeptClaims.
From Coq Require Import Lia.
Local Open Scope nat_scope.

(** ** Places *)
Lemma edited_trans l k n : edited l k → edited k n → edited l n.
Proof.
  intros (f & F1 & F2 & F3) (g & G1 & G2 & G3).
  exists (λ a b, g (f a b).1 (f a b).2). split_and!.
  - intros a b tp p Ha Hb. destruct (F1 a b tp p Ha Hb) as (tp1 & p1 & H1 & H2 & H3).
    destruct (G1 _ _ _ _ H1 H2) as (tp2 & p2 & H4 & H5 & H6). exists tp2, p2. split_and!; auto.
  - intros a b b' tp p p' Ha Hb Hb'. destruct (F1 a b tp p Ha Hb) as (tp1 & p1 & H1 & H2 & _).
    destruct (F1 a b' tp p' Ha Hb') as (tp2 & p2 & H3 & H4 & _). pose proof (F2 a b b' tp p p' Ha Hb Hb') as E.
    rewrite <- E in H3. rewrite H1 in H3. simplify_eq. rewrite <- E. by eapply (G2 _ _ _ _ p1 p2).
  - intros a b a' b' tp p tp' p' Ha Hb Ha' Hb' E. destruct (F1 a b tp p Ha Hb) as (tp1 & p1 & H1 & H2 & _).
    destruct (F1 a' b' tp' p' Ha' Hb') as (tp2 & p2 & H3 & H4 & _).
    destruct (G3 _ _ _ _ _ _ _ _ H1 H2 H3 H4 E) as [E1 E2]. eapply F3; try done.
    rewrite (surjective_pairing (f a b)), (surjective_pairing (f a' b')). congruence.
Qed.
Lemma edited_nil J : edited [] J.
Proof. exists (λ a b, (a, b)). split_and!; by intros. Qed.
Lemma edited_perm l k : l ≡ₚ k → edited l k.
Proof.
  intros (Hl & f & Hf & H)%Permutation_inj.
  exists (λ a b, (f a, b)). split_and!; cbn [fst snd].
  - intros a b tp p Ha Hb. exists tp, p. split_and!; [by rewrite <- H|done..].
  - done.
  - intros a b a' b' tp p tp' p' _ _ _ _ [= E ->]. split; [by apply Hf|done].
Qed.
Lemma edited_grow l k e : edited l k → edited (l ++ e) (k ++ e).
Proof.
  intros (f & F1 & F2 & F3).
  exists (λ a b, if decide (a < length l) then f a b else (a - length l + length k, b)).
  assert (∀ a b tp p, (l ++ e) !! a = Some tp → tp_posts tp !! b = Some p →
    (a < length l ∧ l !! a = Some tp) ∨ (¬ a < length l ∧ e !! (a - length l) = Some tp)) as Hc.
  { intros a b tp p Ha _. apply lookup_app_Some in Ha as [Ha|[Hge Ha]].
    - left. split; [by eapply lookup_lt_Some|done].
    - right. split; [lia|done]. }
  split_and!.
  - intros a b tp p Ha Hb. destruct (Hc a b tp p Ha Hb) as [[Hlt H]|[Hge H]].
    + rewrite !decide_True by done. destruct (F1 a b tp p H Hb) as (t & q & H1 & H2 & H3). exists t, q.
      split_and!; [by apply lookup_app_l_Some|done..].
    + rewrite !decide_False by done. cbn [fst snd]. exists tp, p. split_and!; [|done..].
      rewrite lookup_app_r by lia. by replace (a - length l + length k - length k) with (a - length l) by lia.
  - intros a b b' tp p p' Ha Hb Hb'. destruct (Hc a b tp p Ha Hb) as [[Hlt H]|[Hge H]].
    + rewrite !decide_True by done. by eapply F2.
    + by rewrite !decide_False by done.
  - intros a b a' b' tp p tp' p' Ha Hb Ha' Hb'.
    destruct (Hc a b tp p Ha Hb) as [[Hlt H]|[Hge H]], (Hc a' b' tp' p' Ha' Hb') as [[Hlt' H']|[Hge' H']].
    + rewrite !decide_True by done. by eapply F3.
    + rewrite decide_True, decide_False by done. intros E. destruct (F1 a b tp p H Hb) as (t & q & H1 & _).
      rewrite E in H1. cbn [fst] in H1. apply lookup_lt_Some in H1. lia.
    + rewrite decide_False, decide_True by done. intros E. destruct (F1 a' b' tp' p' H' Hb') as (t & q & H1 & _).
      rewrite <- E in H1. cbn [fst] in H1. apply lookup_lt_Some in H1. lia.
    + rewrite !decide_False by done. intros [= E1 ->]. split; [lia|done].
Qed.
Lemma refines_fp p q f : post_refines p q → has_fp p f → has_fp q f.
Proof.
  intros Hr [Hf Ht]. split; [done|]. apply (pr_tags _ _ Hr); [done|]. intros ->. apply is_fingerprint_spec in Hf. revert Hf. by vm_compute.
Qed.
Lemma edited_refined l k : Forall2 trn_refines l k → edited l k.
Proof.
  intros HF. exists (λ a b, (a, b)). split_and!; cbn [fst snd].
  - intros a b tp p Ha Hb. destruct (Forall2_lookup_l _ _ _ _ _ HF Ha) as (tp' & Ha' & _ & Hps).
    destruct (Forall2_lookup_l _ _ _ _ _ Hps Hb) as (p' & Hb' & Hc). exists tp', p'. split_and!; [done..|].
    intros f. by apply refines_fp.
  - done.
  - intros. by simplify_eq.
Qed.

(** ** Merging transactions that are known and transactions that are new *)
Definition known_to (j : journal) (tp : transaction_postings) : Prop :=
  ∃ a, ∀ p, p ∈ tp_posts tp → ∃ i x, lookup_posting j (tp_date tp) p = VMerge i ∧ j_posts j !! i = Some x ∧ jp_trn x = a.
Definition new_to (j : journal) (tp : transaction_postings) : Prop :=
  ∀ p, p ∈ tp_posts tp → lookup_posting j (tp_date tp) p = VNew.
Definition jp_refines (x y : jpost) : Prop := jp_trn y = jp_trn x ∧ post_refines (jp_post x) (jp_post y).

(** The transactions numbered from [n] on, with their postings. *)
Definition tail_trns (n : nat) (more : list transaction_internal) (qs : list jpost) : list transaction_postings :=
  imap (λ i h, TP h (jp_post <$> filter (λ x, jp_trn x = n + i) qs)) more.
(** The journal [K] is [j], refined, followed by [new]. *)
Definition grown (j K : journal) (new : list transaction_postings) : Prop :=
  ∃ ps qs more, K = Journal (j_trns j ++ more) (ps ++ qs) ∧ Forall2 jp_refines (j_posts j) ps ∧
    (∀ x, x ∈ qs → length (j_trns j) ≤ jp_trn x < length (j_trns j) + length more) ∧
    tail_trns (length (j_trns j)) more qs = new.
Lemma trns_refined ts ps ps' : Forall2 jp_refines ps ps' → Forall2 trn_refines (journal_trns (Journal ts ps)) (journal_trns (Journal ts ps')).
Proof.
  intros HF. apply Forall2_same_length_lookup. unfold journal_trns. cbn [j_trns j_posts]. split; [by rewrite !imap_length|].
  intros i x y. rewrite !list_lookup_imap. destruct (ts !! i) as [h|]; [|done]. simpl. intros [= <-] [= <-]. split; [done|].
  cbn [tp_posts]. clear -HF. induction HF as [|x y l k [E Hr] HF IH]; [constructor|]. rewrite !filter_cons, E.
  destruct (decide (jp_trn x = i)); [rewrite !fmap_cons; by constructor|done].
Qed.
Lemma jp_refines_refl l : Forall2 jp_refines l l.
Proof. induction l; constructor; [|done]. split; [done|apply post_refines_refl]. Qed.
Lemma jp_refines_trans l k n : Forall2 jp_refines l k → Forall2 jp_refines k n → Forall2 jp_refines l n.
Proof.
  intros H. revert n. induction H as [|x y l k [E Hr] H IH]; intros n; inversion 1 as [|? z ? n' [E' Hr'] H']; subst; constructor.
  - split; [congruence|by eapply post_refines_trans].
  - by apply IH.
Qed.
Lemma grown_refl j : grown j j [].
Proof.
  exists (j_posts j), [], []. rewrite !app_nil_r. split_and!; [by destruct j|apply jp_refines_refl|by intros x Hx%elem_of_nil|done].
Qed.
Lemma filter_none' {A} (P : A → Prop) `{!∀ x, Decision (P x)} l : (∀ x, x ∈ l → ¬ P x) → filter P l = [].
Proof. apply filter_none. Qed.
Lemma grown_trns j K new : (∀ x, x ∈ j_posts j → jp_trn x < length (j_trns j)) → grown j K new →
  ∃ old, journal_trns K = old ++ new ∧ Forall2 trn_refines (journal_trns j) old.
Proof.
  intros Hlt (ps & qs & more & -> & HF & Hq & <-). exists (journal_trns (Journal (j_trns j) ps)). split.
  - unfold journal_trns, tail_trns. cbn [j_trns j_posts]. rewrite imap_app. f_equal.
    + apply imap_ext_lookup. intros t h Ht. apply lookup_lt_Some in Ht. f_equal. rewrite filter_app.
      rewrite (filter_none' _ qs), app_nil_r; [done|]. intros x Hx. specialize (Hq x Hx). lia.
    + apply imap_ext_lookup. intros t h Ht. unfold compose. f_equal. rewrite filter_app.
      rewrite (filter_none' _ ps); [done|]. intros x [i Hx]%elem_of_list_lookup.
      destruct (Forall2_lookup_r _ _ _ _ _ HF Hx) as (y & Hy & E & _). apply elem_of_list_lookup_2, Hlt in Hy. lia.
  - destruct j. by apply trns_refined.
Qed.
Lemma alter_refines (l : list jpost) i p : Forall2 jp_refines l (alter (λ x, JP (jp_trn x) (jp_date x) (merge_posting (jp_post x) p)) i l).
Proof.
  revert i. induction l as [|x l IH]; intros i; [by constructor|]. destruct i; simpl; constructor; try apply jp_refines_refl.
  - split; [done|]. apply merge_posting_refines.
  - split; [done|apply post_refines_refl].
  - apply IH.
Qed.
Lemma fold_known t d n pvs : (∀ pv, pv ∈ pvs → ∃ i, pv.2 = VMerge i ∧ i < n) → ∀ ps qs, length ps = n →
  ∃ ps', foldl (apply_posting t d) (ps ++ qs) pvs = ps' ++ qs ∧ Forall2 jp_refines ps ps'.
Proof.
  intros H. induction pvs as [|[p v] pvs IH]; intros ps qs Hn; [exists ps; split; [done|apply jp_refines_refl]|].
  destruct (H (p, v)) as (i & Ei & Hi); [left|]. cbn [snd] in Ei. subst v. cbn [foldl]. unfold apply_posting at 2. cbn [fst snd].
  assert (∀ f : jpost → jpost, alter f i (ps ++ qs) = alter f i ps ++ qs) as -> by (intros f; by rewrite alter_app_l by lia).
  destruct (IH (λ pv Hpv, H pv (elem_of_list_further _ _ _ Hpv)) (alter (λ x, JP (jp_trn x) (jp_date x) (merge_posting (jp_post x) p)) i ps) qs) as (ps' & E & HF).
  { by rewrite alter_length. }
  exists ps'. split; [done|]. eapply jp_refines_trans; [apply alter_refines|exact HF].
Qed.

Lemma grown_known j K new tp : tp_posts tp ≠ [] → known_to j tp → grown j K new → grown j (apply_trn j K tp) new.
Proof.
  intros Hne [a Ha] (ps & qs & more & -> & HF & Hq & <-). unfold apply_trn.
  assert (left_out j tp = false) as ->.
  { apply to_merge_spec. split; [done|]. intros p Hp Hm%ambiguous_is. destruct (Ha p Hp) as (i & x & E & _). by rewrite E in Hm. }
  assert (dests j tp ≫= (λ i, option_list (jp_trn <$> j_posts j !! i)) ≠ []) as Hd.
  { intros Ed. destruct (tp_posts tp) as [|p l] eqn:Ep; [done|]. destruct (Ha p) as (i & x & E & Hx & _); [left|].
    assert (jp_trn x ∈ @nil nat) as Hin; [|by apply elem_of_nil in Hin].
    rewrite <- Ed. apply elem_of_list_bind. exists i. rewrite Hx. split; [by apply elem_of_list_singleton|].
    unfold dests, verdicts. rewrite Ep. simpl. rewrite E. left. }
  destruct (_ ≫= _) as [|t ts]; [done|]. cbn [j_trns j_posts].
  destruct (fold_known t (tp_date tp) (length ps) (zip (tp_posts tp) (verdicts j tp))) with (ps := ps) (qs := qs) as (ps' & E & HF').
  - intros [p v] Hin. pose proof Hin as Hp%elem_of_zip_l. apply elem_of_zip_r in Hin. unfold verdicts in Hin.
    apply elem_of_list_fmap in Hin as (q & -> & Hq'). destruct (Ha q Hq') as (i & x & E & Hx & _). exists i. split; [done|].
    apply lookup_lt_Some in Hx. by rewrite <- (Forall2_length _ _ _ HF).
  - done.
  - rewrite E. exists ps', qs, more. split_and!; [done|by eapply jp_refines_trans|done..].
Qed.
Lemma new_posts n d (l : list posting_internal) : jp_post <$> filter (λ x, jp_trn x = n) (JP n d <$> l) = l.
Proof. induction l as [|p l IH]; [done|]. rewrite fmap_cons, filter_cons_True by done. simpl. by f_equal. Qed.
Lemma grown_new j K new tp : (∀ x, x ∈ j_posts j → jp_trn x < length (j_trns j)) → tp_posts tp ≠ [] → new_to j tp →
  grown j K new → grown j (apply_trn j K tp) (new ++ [tp]).
Proof.
  intros Hlt Hne Hnew (ps & qs & more & -> & HF & Hq & <-). unfold apply_trn.
  assert (verdicts j tp = (λ _, VNew) <$> tp_posts tp) as Ev.
  { unfold verdicts. apply list_fmap_ext. intros ? p Hp%elem_of_list_lookup_2. by apply Hnew. }
  assert (left_out j tp = false) as ->.
  { apply to_merge_spec. split; [done|]. intros p Hp Ha%ambiguous_is. by rewrite Hnew in Ha. }
  assert (dests j tp = []) as ->. { unfold dests. rewrite Ev. clear. induction (tp_posts tp); done. }
  cbn [mbind list_bind j_trns j_posts]. rewrite fold_all_new, fst_zip.
  - set (n := length (j_trns j ++ more)).
    exists ps, (qs ++ (JP n (tp_date tp) <$> tp_posts tp)), (more ++ [tp_trn tp]). split_and!.
    + by rewrite !app_assoc.
    + done.
    + intros x [Hx|Hx]%elem_of_app; rewrite app_length; simpl; [specialize (Hq x Hx); lia|].
      apply elem_of_list_fmap in Hx as (q & -> & _). cbn [jp_trn]. unfold n. rewrite app_length. lia.
    + unfold tail_trns. rewrite imap_app. f_equal.
      * apply imap_ext_lookup. intros t h Ht%lookup_lt_Some. f_equal. rewrite filter_app, (filter_none' _ (JP n _ <$> _)), app_nil_r; [done|].
        intros x (q & -> & _)%elem_of_list_fmap. cbn [jp_trn]. unfold n. rewrite app_length. lia.
      * cbn [imap]. unfold compose. rewrite Nat.add_0_r. destruct tp as [h l]. cbn [tp_trn tp_posts]. do 2 f_equal. rewrite filter_app, fmap_app.
        rewrite (filter_none' _ qs). 2:{ intros x Hx. specialize (Hq x Hx). lia. }
        simpl. unfold n. rewrite app_length. by rewrite new_posts.
  - unfold verdicts. by rewrite fmap_length.
  - rewrite Ev. intros [p v] Hin. apply elem_of_zip_r, elem_of_list_fmap in Hin as (? & -> & _). done.
Qed.

Lemma grown_all_known j D : (∀ tp, tp ∈ D → tp_posts tp ≠ [] ∧ known_to j tp) → ∀ K new, grown j K new → grown j (foldl (apply_trn j) K D) new.
Proof.
  induction D as [|tp D IH]; intros H K new HK; [done|]. cbn [foldl]. apply IH; [intros; apply H; by right|].
  destruct (H tp) as [??]; [left|]. by apply grown_known.
Qed.
Lemma grown_all_new j D : (∀ x, x ∈ j_posts j → jp_trn x < length (j_trns j)) → (∀ tp, tp ∈ D → tp_posts tp ≠ [] ∧ new_to j tp) →
  ∀ K new, grown j K new → grown j (foldl (apply_trn j) K D) (new ++ D).
Proof.
  intros Hlt. induction D as [|tp D IH]; intros H K new HK; [by rewrite app_nil_r|]. cbn [foldl].
  change (tp :: D) with ([tp] ++ D). rewrite app_assoc. apply IH; [intros; apply H; by right|].
  destruct (H tp) as [??]; [left|]. by apply grown_new.
Qed.
Lemma grown_window j parts seen w : (∀ x, x ∈ j_posts j → jp_trn x < length (j_trns j)) →
  (∀ k D tp, k ∈ w → parts !! k = Some D → tp ∈ D → tp_posts tp ≠ [] ∧ (k ∈ seen → known_to j tp) ∧ (k ∉ seen → new_to j tp)) →
  grown j (spec_merge j (window parts w)) (window parts (unseen seen w)).
Proof.
  intros Hlt H. unfold spec_merge.
  enough (∀ K new, grown j K new → grown j (foldl (apply_trn j) K (window parts w)) (new ++ window parts (unseen seen w))) as H'
    by exact (H' j [] (grown_refl j)).
  induction w as [|k w IH]; intros K new HK; [by rewrite app_nil_r|].
  assert (∀ k D tp, k ∈ w → parts !! k = Some D → tp ∈ D → tp_posts tp ≠ [] ∧ (k ∈ seen → known_to j tp) ∧ (k ∉ seen → new_to j tp)) as H'
    by (intros ?????; eapply H; [by right|done..]).
  change (window parts (k :: w)) with (default [] (parts !! k) ++ window parts w). rewrite foldl_app.
  unfold unseen. rewrite filter_cons. destruct (decide (k ∉ seen)) as [Hk|Hk].
  - change (window parts (k :: filter (.∉ seen) w)) with (default [] (parts !! k) ++ window parts (unseen seen w)). rewrite app_assoc.
    apply IH; [done|]. destruct (parts !! k) as [D|] eqn:ED; [|by rewrite app_nil_r]. apply grown_all_new; [done| |done].
    intros tp Htp. destruct (H k D tp) as (? & _ & ?); [left|done..|auto].
  - apply IH; [done|]. destruct (parts !! k) as [D|] eqn:ED; [|done]. apply grown_all_known; [|done].
    intros tp Htp. destruct (H k D tp) as (? & ? & _); [left|done..|]. split; [done|]. destruct (decide (k ∈ seen)); [auto|done].
Qed.

(** ** A stream of transactions that are told apart by their fingerprints *)
Section stream.
  Context (parts : list (list transaction_postings)) (Hok : journal_ok (concat parts)).
  Lemma parts_share' i k D E tp tp' p q : parts !! i = Some D → parts !! k = Some E → tp ∈ D → tp' ∈ E →
    p ∈ tp_posts tp → q ∈ tp_posts tp' → share_fp p q → i = k.
  Proof using Hok.
    assert (∀ i k D E tp tp' p q, i < k → parts !! i = Some D → parts !! k = Some E → tp ∈ D → tp' ∈ E →
      p ∈ tp_posts tp → q ∈ tp_posts tp' → ¬ share_fp p q) as H.
    { clear i k D E tp tp' p q. intros i k D E tp tp' p q Hlt HD HE Htp Htp' Hp Hq.
      destruct Hok as (_ & Hd & _). rewrite <- (take_drop k parts), concat_app', all_posts_app in Hd.
      eapply fps_distinct_cross; [exact Hd|eapply elem_all_posts; [|done]..].
      - eapply (elem_concat _ i); [|done]. by rewrite lookup_take by done.
      - eapply (elem_concat _ 0); [|done]. rewrite lookup_drop. by rewrite Nat.add_0_r. }
    intros HD HE Htp Htp' Hp Hq Hs. destruct (lt_eq_lt_dec i k) as [[?|?]|?]; [|done|].
    - by destruct (H i k D E tp tp' p q).
    - destruct (H k i E D tp' tp q p); try done. by apply share_swap.
  Qed.
  Lemma part_ok' k D : parts !! k = Some D → journal_ok D.
  Proof using Hok.
    intros HD. destruct Hok as (H1 & H2 & H3). split_and!.
    - intros p (tp & Hp & Htp)%elem_of_list_bind. apply H1. eapply elem_all_posts; [|done]. by eapply elem_concat.
    - rewrite <- (take_drop_middle parts k D HD), concat_app' in H2. simpl in H2. rewrite !all_posts_app in H2.
      eapply fps_distinct_sublist; [|exact H2]. apply sublist_inserts_l, sublist_inserts_r. done.
    - intros tp Htp. apply H3. by eapply elem_concat.
  Qed.
  Lemma window_ok' w : NoDup w → journal_ok (window parts w).
  Proof using Hok.
    intros Hw. split_and!.
    - intros p (tp & Hp & Htp)%elem_of_list_bind. apply elem_window in Htp as (k & D & _ & HD & Ht).
      destruct (part_ok' k D HD) as (H & _). apply H. by eapply elem_all_posts.
    - induction w as [|k w IH]; [by intros i n p q Hi|]. apply NoDup_cons in Hw as [Hk Hw].
      change (k :: w) with ([k] ++ w). rewrite window_app, all_posts_app. apply fps_distinct_app_intro; [|by apply IH|].
      + unfold window. simpl. rewrite app_nil_r. destruct (parts !! k) as [D|] eqn:E; simpl; [by apply (part_ok' k)|by intros i n p q Hi].
      + intros p q (tp & Hp & Htp)%elem_of_list_bind (tp' & Hq & Htp')%elem_of_list_bind Hs.
        apply elem_window in Htp as (k1 & D & ->%elem_of_list_singleton & HD & Ht), Htp' as (k2 & D2 & Hk2 & HD2 & Ht').
        assert (k = k2) as -> by by eapply (parts_share' k k2 D D2 tp tp' p q). done.
    - intros tp (k & D & _ & HD & Ht)%elem_window. by apply (part_ok' k D HD).
  Qed.
End stream.
(** A journal merged into a new merger; postings are under the dates of their transactions. *)
Lemma journal_loaded_dated ho J : hash_order_ok ho → journal_ok J →
  ∃ m j, merge ho merger_new J = (m, Ok []) ∧ reachable m ∧ represents m j ∧ journal_wf j ∧ journal_trns j = J ∧ dates_agree j.
Proof.
  intros Hho HJ. pose proof HJ as (H1 & H2 & H3). destruct (from_empty ho ho J Hho Hho H1 H2) as (m & Hm & _).
  assert (filter (λ tp, tp_posts tp = []) J = []) as E. { apply filter_none. exact H3. }
  rewrite E in Hm.
  destruct (merge_inv merger_new journal_new reach_new rep_new ho J m [] Hho Hm) as (Hv & Hwf & Hj & Hun).
  exists m, (spec_merge journal_new J). split; [done|]. split.
  { replace m with (merge ho merger_new J).1 by by rewrite Hm. constructor; [constructor|done]. }
  split; [done|]. split; [done|]. split.
  - rewrite spec_merge_all_new; [simpl; by apply filter_all|by intros x Hx%elem_of_nil|done].
  - eapply (dates_kept merger_new journal_new reach_new rep_new ho J m []); try done.
Qed.

(** ** The journal and the statement *)
Section step.
  Context (parts : list (list transaction_postings)) (seen w : list nat) (J : list transaction_postings) (j : journal).
  Context (Hok : journal_ok (concat parts)) (HJ : journal_ok J) (Hnd : NoDup w) (Hns : NoDup seen).
  Context (Hwf : journal_wf j) (Hda : dates_agree j) (EJ : journal_trns j = J).

  Lemma spots S : (∀ p, p ∈ all_posts S → mergeable p) → edited S J → ∃ place : nat → nat → nat,
    (∀ a b tp p d, S !! a = Some tp → tp_posts tp !! b = Some p →
      ∃ x, lookup_posting j d p = VMerge (place a b) ∧ j_posts j !! place a b = Some x) ∧
    (∀ a b b' tp p p' x x', S !! a = Some tp → tp_posts tp !! b = Some p → tp_posts tp !! b' = Some p' →
      j_posts j !! place a b = Some x → j_posts j !! place a b' = Some x' → jp_trn x = jp_trn x') ∧
    (∀ a b a' b' tp p tp' p', S !! a = Some tp → tp_posts tp !! b = Some p → S !! a' = Some tp' → tp_posts tp' !! b' = Some p' →
      place a b = place a' b' → a = a' ∧ b = b').
  Proof using HJ Hwf EJ.
    intros Hm (f & F1 & F2 & F3). destruct HJ as (_ & HdJ & _).
    (* the number in [j] of the posting at a place of [J] *)
    assert (∀ c d t q, J !! c = Some t → tp_posts t !! d = Some q → ∃ i x, j_posts j !! i = Some x ∧ jp_trn x = c ∧ jp_post x = q ∧
      rank (j_posts j) i (jp_trn x) = d) as Hat.
    { intros c d t q Hc Hd. rewrite <- EJ in Hc. destruct (trns_post j c d t q Hc Hd) as (i & x & Hx & Et & Eq).
      exists i, x. split_and!; [done..|]. destruct (trns_place j i x Hwf Hx) as (t' & Ht' & Hr). rewrite EJ in Hc, Ht'.
      destruct (same_place J _ _ _ _ t' t _ _ HdJ Ht' Hr Hc Hd) as [_ E]; [|done].
      rewrite <- Eq. destruct (jw_mergeable _ Hwf x) as [[g Hg] _]; [by eapply elem_of_list_lookup_2|]. by exists g. }
    set (num := λ c d, match find (λ i, match j_posts j !! i with Some x => (jp_trn x =? c) && (rank (j_posts j) i (jp_trn x) =? d) | None => false end)
      (seq 0 (length (j_posts j))) with Some i => i | None => 0 end).
    assert (∀ c d t q, J !! c = Some t → tp_posts t !! d = Some q → ∃ x, j_posts j !! num c d = Some x ∧ jp_trn x = c ∧ jp_post x = q ∧
      rank (j_posts j) (num c d) (jp_trn x) = d) as Hnum.
    { intros c d t q Hc Hd. destruct (Hat c d t q Hc Hd) as (i & x & Hx & Et & Eq & Er). unfold num.
      destruct (find _ _) as [i'|] eqn:Ef.
      - apply find_some in Ef as [_ Ef]. destruct (j_posts j !! i') as [y|] eqn:Ey; [|done].
        apply andb_true_iff in Ef as [E1%Nat.eqb_eq E2%Nat.eqb_eq]. exists y. split_and!; try done.
        destruct (trns_place j i' y Hwf Ey) as (t' & Ht' & Hr). rewrite EJ, E1, Hc in Ht'. injection Ht' as <-. rewrite E2, Hd in Hr. congruence.
      - exfalso. eapply find_none with (x := i) in Ef.
        + rewrite Hx, Et, Nat.eqb_refl in Ef. rewrite Et in Er. rewrite Er, Nat.eqb_refl in Ef. done.
        + apply in_seq. apply lookup_lt_Some in Hx. lia. }
    exists (λ a b, num (f a b).1 (f a b).2). split_and!.
    - intros a b tp p d Ha Hb. destruct (F1 a b tp p Ha Hb) as (t & q & H1 & H2 & H3).
      destruct (Hnum _ _ t q H1 H2) as (x & Hx & Et & Eq & Er). exists x. split; [|done].
      apply selects_spec. left. assert (share_fp (jp_post x) p) as Hs.
      { destruct (Hm p) as [[g Hg] _]; [eapply elem_all_posts; [by eapply elem_of_list_lookup_2|by eapply elem_of_list_lookup_2]|].
        exists g. rewrite Eq. split; [by apply H3|done]. }
      split; [by exists x|]. intros i' (y & Hy & Hs'). eapply (wf_same j i' _ y x); try done. rewrite Eq.
      destruct Hs' as (g & G1 & G2). exists g. split; [done|]. by apply H3.
    - intros a b b' tp p p' x x' Ha Hb Hb' Hx Hx'. destruct (F1 a b tp p Ha Hb) as (t & q & H1 & H2 & _), (F1 a b' tp p' Ha Hb') as (t' & q' & H1' & H2' & _).
      destruct (Hnum _ _ t q H1 H2) as (y & Hy & Et & _), (Hnum _ _ t' q' H1' H2') as (y' & Hy' & Et' & _).
      rewrite Hy in Hx. rewrite Hy' in Hx'. simplify_eq. rewrite Et, Et'. by eapply F2.
    - intros a b a' b' tp p tp' p' Ha Hb Ha' Hb' E. destruct (F1 a b tp p Ha Hb) as (t & q & H1 & H2 & _), (F1 a' b' tp' p' Ha' Hb') as (t' & q' & H1' & H2' & _).
      destruct (Hnum _ _ t q H1 H2) as (y & Hy & Et & _ & Er), (Hnum _ _ t' q' H1' H2') as (y' & Hy' & Et' & _ & Er').
      eapply F3; try done. rewrite (surjective_pairing (f a b)), (surjective_pairing (f a' b')). rewrite E in *. rewrite Hy in Hy'. simplify_eq. congruence.
  Qed.

  Context (Hed : edited (window parts seen) J) (Hnews : news parts seen w J).

  Lemma news_new k D tp : k ∈ w → k ∉ seen → parts !! k = Some D → tp ∈ D → new_to j tp.
  Proof using HJ Hwf Hda EJ Hed Hnews.
    intros Hk Hs HD Htp p Hp. apply matches_nothing_spec.
    assert (tp ∈ window parts (unseen seen w)) as Hin.
    { apply elem_window. exists k, D. split_and!; [|done..]. by apply elem_of_list_filter. }
    assert (∀ i x, j_posts j !! i = Some x → ∃ t, t ∈ J ∧ jp_post x ∈ tp_posts t ∧ tp_date t = jp_date x) as Hx.
    { intros i x Hx. destruct (trns_place j i x Hwf Hx) as (t & Ht & Hr). exists t. rewrite EJ in Ht.
      split_and!; [by eapply elem_of_list_lookup_2..|]. rewrite <- EJ in Ht. unfold journal_trns in Ht. rewrite list_lookup_imap in Ht.
      destruct (j_trns j !! jp_trn x) as [h|] eqn:Eh; simplify_eq/=. symmetry. apply Hda; [by eapply elem_of_list_lookup_2|done]. }
    split.
    - intros i (x & Ex & Hsh). destruct (Hx i x Ex) as (t & Ht & Hq & _). by destruct (Hnews tp t p (jp_post x) Hin Ht Hp Hq).
    - intros i (x & Ex & Hd & Hsm). destruct (Hx i x Ex) as (t & Ht & Hq & Hdt). destruct (Hnews tp t p (jp_post x) Hin Ht Hp Hq) as [_ H].
      apply H; [congruence|done].
  Qed.
  Lemma seen_known k D tp : k ∈ seen → parts !! k = Some D → tp ∈ D → known_to j tp.
  Proof using Hok HJ Hns Hwf EJ Hed.
    intros Hk HD Htp. destruct (spots (window parts seen)) as (f & F1 & F2 & _); [apply (window_ok' parts Hok seen Hns)|done|].
    assert (tp ∈ window parts seen) as [a Ha]%elem_of_list_lookup by (apply elem_window; eauto).
    destruct (tp_posts tp) as [|p0 l] eqn:Ep. { exists 0. rewrite Ep. by intros p Hp%elem_of_nil. }
    destruct (F1 a 0 tp p0 (tp_date tp) Ha) as (x0 & _ & Hx0); [by rewrite Ep|]. exists (jp_trn x0).
    intros p [b Hb]%elem_of_list_lookup. destruct (F1 a b tp p (tp_date tp) Ha Hb) as (x & E & Hx). exists (f a b), x. split_and!; [done..|].
    eapply (F2 a b 0); try done. by rewrite Ep.
  Qed.
  Lemma statement_acceptable : acceptable j (window parts w).
  Proof using Hok HJ Hnd Hns Hwf Hda EJ Hed Hnews.
    destruct (window_ok' parts Hok w Hnd) as (H1 & H2 & H3).
    destruct (spots (window parts seen)) as (f & F1 & F2 & F3); [apply (window_ok' parts Hok seen Hns)|done|].
    assert (∀ tp p, tp ∈ window parts w → p ∈ tp_posts tp → lookup_posting j (tp_date tp) p = VNew ∨ tp ∈ window parts seen) as Hcase.
    { intros tp p Htp Hp. apply elem_window in Htp as (k & D & Hk & HD & Ht). destruct (decide (k ∈ seen)) as [Hs|Hs].
      - right. apply elem_window. eauto.
      - left. by eapply (news_new k D tp). }
    split; [done|done| | |].
    - intros p (tp & Hp & Htp)%elem_of_list_bind Hc%conflicting_spec.
      assert (lookup_posting j (tp_date tp) p = VConflict) as E.
      { unfold lookup_posting. destruct (fp_hits j p) as [|? [|? ?]]; simpl in Hc; [lia..|done]. }
      destruct (Hcase tp p Htp Hp) as [E'|[a Ha]%elem_of_list_lookup]; [by rewrite E in E'|].
      apply elem_of_list_lookup in Hp as [b Hb]. destruct (F1 a b tp p (tp_date tp) Ha Hb) as (x & E' & _). by rewrite E in E'.
    - intros tp p q i k x y Htp _ Hp Hq Hi%selects_spec Hk%selects_spec Hx Hy.
      destruct (Hcase tp p Htp Hp) as [E|[a Ha]%elem_of_list_lookup]; [by rewrite E in Hi|].
      apply elem_of_list_lookup in Hp as [b Hb], Hq as [b' Hb'].
      destruct (F1 a b tp p (tp_date tp) Ha Hb) as (x' & E & Hx'), (F1 a b' tp q (tp_date tp) Ha Hb') as (y' & E' & Hy').
      rewrite E in Hi. rewrite E' in Hk. simplify_eq. by eapply (F2 a b b').
    - intros a b a' b' tp tp' p p' i Ha Hb Ha' Hb' _ _ Hi%selects_spec Hk%selects_spec.
      assert (Hin : tp ∈ window parts w) by by eapply elem_of_list_lookup_2. assert (Hin' : tp' ∈ window parts w) by by eapply elem_of_list_lookup_2.
      assert (Hp : p ∈ tp_posts tp) by by eapply elem_of_list_lookup_2. assert (Hp' : p' ∈ tp_posts tp') by by eapply elem_of_list_lookup_2.
      destruct (Hcase tp p Hin Hp) as [E|[c Hc]%elem_of_list_lookup]; [by rewrite E in Hi|].
      destruct (Hcase tp' p' Hin' Hp') as [E|[c' Hc']%elem_of_list_lookup]; [by rewrite E in Hk|].
      destruct (F1 c b tp p (tp_date tp) Hc Hb) as (x & Ei & _), (F1 c' b' tp' p' (tp_date tp') Hc' Hb') as (y & Ek & _).
      rewrite Ei in Hi. rewrite Ek in Hk. injection Hi as <-. injection Hk as Hk.
      destruct (F3 c' b' c b tp' p' tp p Hc' Hb' Hc Hb Hk) as [-> ->].
      rewrite Hc in Hc'. injection Hc' as <-. rewrite Hb in Hb'. injection Hb' as <-.
      eapply same_place; try done. destruct (H1 p) as [[g Hg] _]; [by eapply elem_all_posts|]. by exists g.
  Qed.
End step.

(** One more statement. *)
Lemma statement_step parts seen w J ho1 ho2 : journal_ok (concat parts) → journal_ok J → NoDup w → NoDup seen →
  edited (window parts seen) J → news parts seen w J → hash_order_ok ho1 → hash_order_ok ho2 →
  ∃ m1 m2 J', merge ho1 merger_new J = (m1, Ok []) ∧ merge ho2 m1 (window parts w) = (m2, Ok []) ∧ reachable m2 ∧
    Forall2 trn_refines J J' ∧ ∀ hb, hash_order_ok hb → build hb m2 = Ok (stable_sort (by_key tp_date) (J' ++ window parts (unseen seen w))).
Proof.
  intros Hok HJ Hnd Hns Hed Hnews Hho1 Hho2.
  destruct (journal_loaded_dated ho1 J Hho1 HJ) as (m1 & j & Hm1 & Hr & Hj & Hwf & EJ & Hda).
  destruct (proj2 (merge_ok_iff m1 j Hr Hj ho2 (window parts w) Hho2)) as (m2 & un & Hm); [by eapply statement_acceptable|].
  destruct (merge_inv m1 j Hr Hj ho2 _ m2 un Hho2 Hm) as (Hv & Hwf' & Hj' & Hun).
  pose proof (window_ok' parts Hok w Hnd) as (_ & _ & H3).
  assert (filter (λ tp, left_out j tp = true) (window parts w) = []) as El.
  { apply filter_none. intros tp Htp Hl%lo_of_spec. apply Hl. split; [by apply H3|]. intros p Hp Hm'%ambiguous_is.
    apply elem_window in Htp as (k & D & Hk & HD & Ht). destruct (decide (k ∈ seen)) as [Hks|Hks].
    - destruct (seen_known parts seen J j Hok HJ Hns Hwf EJ Hed k D tp Hks HD Ht) as [a Ha].
      destruct (Ha p Hp) as (i & x & E & _). by rewrite E in Hm'.
    - by rewrite (news_new parts seen w J j HJ Hwf Hda EJ Hed Hnews k D tp Hk Hks HD Ht p Hp) in Hm'. }
  rewrite El in Hun. apply Forall2_nil_inv_l in Hun as ->.
  destruct (grown_trns j (spec_merge j (window parts w)) (window parts (unseen seen w))) as (old & E & HF).
  { apply Hwf. }
  { apply grown_window; [apply Hwf|]. intros k D tp Hk HD Ht. split_and!.
    - apply H3, elem_window. eauto.
    - intros Hs. by eapply (seen_known parts seen J j).
    - intros Hs. by eapply (news_new parts seen w J j). }
  rewrite EJ in HF. exists m1, m2, old. split_and!; [done|done| |done|].
  - replace m2 with (merge ho2 m1 (window parts w)).1 by by rewrite Hm. by constructor.
  - intros hb Hhb. rewrite <- E. by apply build_refines.
Qed.

(** ** Histories *)
Lemma kept_inv parts seen J : journal_ok (concat parts) → kept parts seen J →
  journal_ok J ∧ NoDup seen ∧ edited (window parts seen) J.
Proof.
  intros Hok. induction 1 as [J HJ|seen J J' _ (HJ & Hns & He) Hed HJ'|seen J w ho1 ho2 hb m1 m2 un1 un2 out _ (HJ & Hns & He) Hnd Hnews H1 H2 Hb E1 E2 Eb].
  - split_and!; [done|constructor|apply edited_nil].
  - split_and!; [done|done|by eapply edited_trans].
  - destruct (statement_step parts seen w J ho1 ho2) as (m1' & m2' & J' & E1' & E2' & Hr & HF & Hbuild); try done.
    rewrite E1 in E1'. injection E1' as <- _. rewrite E2 in E2'. injection E2' as <- _. split_and!.
    + by eapply built_ok.
    + apply NoDup_app. split_and!; [done| |by apply NoDup_filter]. intros k Hk [? _]%elem_of_list_filter. done.
    + rewrite (Hbuild hb Hb) in Eb. injection Eb as <-. rewrite window_app.
      eapply edited_trans; [|apply edited_perm; symmetry; apply stable_sort_perm].
      apply edited_grow. eapply edited_trans; [done|by apply edited_refined].
Qed.
(** C135 *)
Lemma kept_month parts seen J w ho1 ho2 : journal_ok (concat parts) → kept parts seen J → NoDup w → news parts seen w J →
  hash_order_ok ho1 → hash_order_ok ho2 →
  ∃ m1 m2 J', merge ho1 merger_new J = (m1, Ok []) ∧ merge ho2 m1 (window parts w) = (m2, Ok []) ∧
    Forall2 trn_refines J J' ∧ ∀ hb, hash_order_ok hb → build hb m2 = Ok (stable_sort (by_key tp_date) (J' ++ window parts (unseen seen w))).
Proof.
  intros Hok Hk Hnd Hnews H1 H2. destruct (kept_inv parts seen J Hok Hk) as (HJ & Hns & He).
  destruct (statement_step parts seen w J ho1 ho2) as (m1 & m2 & J' & E1 & E2 & _ & HF & Hb); try done. eauto 10.
Qed.
Lemma kept_once parts seen J k D tp : journal_ok (concat parts) → kept parts seen J → k ∈ seen → parts !! k = Some D → tp ∈ D → has_once J tp.
Proof.
  intros Hok Hk Hks HD Htp. destruct (kept_inv parts seen J Hok Hk) as (HJ & Hns & f & F1 & F2 & F3).
  assert (tp ∈ window parts seen) as [a Ha]%elem_of_list_lookup by (apply elem_window; eauto).
  destruct (part_ok' parts Hok k D HD) as (_ & _ & Hne). specialize (Hne tp Htp).
  destruct (tp_posts tp) as [|p0 l] eqn:Ep; [done|]. assert (tp_posts tp !! 0 = Some p0) as H0 by by rewrite Ep.
  destruct (F1 a 0 tp p0 Ha H0) as (t & q0 & Ht & _). exists (f a 0).1, t. split; [done|].
  intros p [b Hb]%elem_of_list_lookup. destruct (F1 a b tp p Ha Hb) as (t' & q & Ht' & Hq & Hfp).
  rewrite (F2 a b 0 tp p p0 Ha Hb H0), Ht in Ht'. injection Ht' as <-. exists (f a b).2, q. split_and!; [done..|].
  intros a' t' b' q' Ha' Hb' (g & G1 & G2). eapply (same_place J); [apply HJ|done..|]. exists g. split; [done|by apply Hfp].
Qed.

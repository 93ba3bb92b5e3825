(** Merging overlapping windows of one stream of transactions. *)
From Verif Require Import Base Types CommentModel MergeModel SpecBase BaseProofs MergeSpec MergeClaims
  MergeProofs MergePending MergeApply MergeBuild MergeClosed MergeLemmas MergePlaces MergeLaws MergeLaws2
  MergeLaws3 MergeLaws4 MergeReplay MergeLaws5 EditClaims MergeEdit WindowClaims.
From Coq Require Import Lia.
Local Open Scope nat_scope.

Lemma fps_distinct_cross l k p q : fps_distinct (l ++ k) → p ∈ l → q ∈ k → ¬ share_fp p q.
Proof.
  intros Hd [i Hi]%elem_of_list_lookup [n Hn]%elem_of_list_lookup Hs.
  assert (i = length l + n) as E.
  { apply (Hd _ _ p q); [|by rewrite lookup_app_r by lia; replace (length l + n - length l) with n by lia|done].
    rewrite lookup_app_l; [done|by eapply lookup_lt_Some]. }
  apply lookup_lt_Some in Hi. lia.
Qed.
Lemma fps_distinct_app_intro l k : fps_distinct l → fps_distinct k → (∀ p q, p ∈ l → q ∈ k → ¬ share_fp p q) → fps_distinct (l ++ k).
Proof.
  intros Hl Hk Hc i n p q Hi Hn Hs.
  apply lookup_app_Some in Hi as [Hi|[Hgi Hi]], Hn as [Hn|[Hgn Hn]].
  - by eapply Hl.
  - destruct (Hc p q); [by eapply elem_of_list_lookup_2..|done].
  - destruct (Hc q p); [by eapply elem_of_list_lookup_2..|by apply share_swap].
  - assert (i - length l = n - length l) by by eapply Hk. lia.
Qed.
Lemma all_posts_app l k : all_posts (l ++ k) = all_posts l ++ all_posts k.
Proof. apply bind_app. Qed.
Lemma elem_all_posts tp p s : tp ∈ s → p ∈ tp_posts tp → p ∈ all_posts s.
Proof. intros. apply elem_of_list_bind. eauto. Qed.
Lemma elem_window {A} (parts : list (list A)) w a : a ∈ window parts w ↔ ∃ k D, k ∈ w ∧ parts !! k = Some D ∧ a ∈ D.
Proof.
  unfold window. rewrite elem_of_list_bind. split.
  - intros (k & Ha & Hk). destruct (parts !! k) as [D|] eqn:E; [|by apply elem_of_nil in Ha]. eauto 10.
  - intros (k & D & Hk & E & Ha). exists k. by rewrite E.
Qed.
Lemma elem_concat {A} (parts : list (list A)) k D a : parts !! k = Some D → a ∈ D → a ∈ concat parts.
Proof.
  revert k. induction parts as [|E parts IH]; intros k Hk Ha; [done|]. simpl. apply elem_of_app.
  destruct k; simplify_eq/=; [by left|right; by eapply IH].
Qed.
Lemma concat_app' {A} (l k : list (list A)) : concat (l ++ k) = concat l ++ concat k.
Proof. induction l; simpl; [done|]. by rewrite IHl, app_assoc. Qed.
Lemma window_app {A} (parts : list (list A)) v w : window parts (v ++ w) = window parts v ++ window parts w.
Proof. apply bind_app. Qed.

Lemma list_alter_id' {A} (f : A → A) i (l : list A) x : l !! i = Some x → f x = x → alter f i l = l.
Proof. intros Hx Hf. apply list_eq. intros k. destruct (decide (i = k)) as [->|]; [by rewrite list_lookup_alter, Hx; simpl; rewrite Hf|by rewrite list_lookup_alter_ne]. Qed.

Section parts.
  Context (parts : list (list transaction_postings)) (Hsep : separate parts).

  Lemma parts_share i k D E tp tp' p q : parts !! i = Some D → parts !! k = Some E → tp ∈ D → tp' ∈ E →
    p ∈ tp_posts tp → q ∈ tp_posts tp' → share_fp p q → i = k.
  Proof using Hsep.
    assert (∀ i k D E tp tp' p q, i < k → parts !! i = Some D → parts !! k = Some E → tp ∈ D → tp' ∈ E →
      p ∈ tp_posts tp → q ∈ tp_posts tp' → ¬ share_fp p q) as H.
    { clear i k D E tp tp' p q. intros i k D E tp tp' p q Hlt HD HE Htp Htp' Hp Hq.
      destruct (sp_ok _ Hsep) as (_ & Hd & _). rewrite <- (take_drop k parts), concat_app', all_posts_app in Hd.
      eapply fps_distinct_cross; [exact Hd|eapply elem_all_posts; [|done]..].
      - eapply (elem_concat _ i); [|done]. by rewrite lookup_take by done.
      - eapply (elem_concat _ 0); [|done]. rewrite lookup_drop. by rewrite Nat.add_0_r. }
    intros HD HE Htp Htp' Hp Hq Hs. destruct (lt_eq_lt_dec i k) as [[?|?]|?]; [|done|].
    - by destruct (H i k D E tp tp' p q).
    - destruct (H k i E D tp' tp q p); try done. by apply share_swap.
  Qed.
  Lemma part_ok k D : parts !! k = Some D → journal_ok D.
  Proof using Hsep.
    intros HD. destruct (sp_ok _ Hsep) as (H1 & H2 & H3). split_and!.
    - intros p (tp & Hp & Htp)%elem_of_list_bind. apply H1. eapply elem_all_posts; [|done]. by eapply elem_concat.
    - rewrite <- (take_drop_middle parts k D HD), concat_app' in H2. simpl in H2. rewrite !all_posts_app in H2.
      eapply fps_distinct_sublist; [|exact H2]. apply sublist_inserts_l, sublist_inserts_r. done.
    - intros tp Htp. apply H3. by eapply elem_concat.
  Qed.
  Lemma window_ok w : NoDup w → journal_ok (window parts w).
  Proof using Hsep.
    intros Hw. split_and!.
    - intros p (tp & Hp & Htp)%elem_of_list_bind. apply elem_window in Htp as (k & D & _ & HD & Ht).
      destruct (part_ok k D HD) as (H & _). apply H. by eapply elem_all_posts.
    - induction w as [|k w IH]; [by intros i n p q Hi|]. apply NoDup_cons in Hw as [Hk Hw].
      change (k :: w) with ([k] ++ w). rewrite window_app, all_posts_app. apply fps_distinct_app_intro; [|by apply IH|].
      + unfold window. simpl. rewrite app_nil_r. destruct (parts !! k) as [D|] eqn:E; simpl; [by apply (part_ok k)|by intros i n p q Hi].
      + intros p q (tp & Hp & Htp)%elem_of_list_bind (tp' & Hq & Htp')%elem_of_list_bind Hs.
        apply elem_window in Htp as (k1 & D & ->%elem_of_list_singleton & HD & Ht), Htp' as (k2 & D2 & Hk2 & HD2 & Ht').
        assert (k = k2) as -> by by eapply (parts_share k k2 D D2 tp tp' p q). done.
    - intros tp (k & D & _ & HD & Ht)%elem_window. by apply (part_ok k D HD).
  Qed.

  (** The journal holds the parts [seen]. *)
  Context (j : journal) (seen : list nat).
  Context (Hwf : journal_wf j) (Hda : dates_agree j) (Hseen : journal_trns j = window parts seen).

  Lemma journal_source x : x ∈ j_posts j → ∃ k D tp, k ∈ seen ∧ parts !! k = Some D ∧ tp ∈ D ∧
    jp_post x ∈ tp_posts tp ∧ jp_date x = tp_date tp ∧ journal_trns j !! jp_trn x = Some tp.
  Proof using Hwf Hda Hseen.
    intros Hx. pose proof Hx as [i Hi]%elem_of_list_lookup. destruct (trns_place j i x Hwf Hi) as (tp & Htp & Hp).
    assert (tp ∈ window parts seen) as (k & D & Hk & HD & Ht)%elem_window.
    { rewrite <- Hseen. by eapply elem_of_list_lookup_2. }
    exists k, D, tp. split_and!; [done..|by eapply elem_of_list_lookup_2| |done].
    unfold journal_trns in Htp. rewrite list_lookup_imap in Htp. destruct (j_trns j !! jp_trn x) as [h|] eqn:Eh; simplify_eq/=.
    by apply Hda.
  Qed.
  Lemma seen_lookup tp d : tp ∈ window parts seen → ∃ a, ∀ p, p ∈ tp_posts tp → ∃ i x, lookup_posting j d p = VMerge i ∧
    j_posts j !! i = Some x ∧ jp_post x = p ∧ jp_trn x = a.
  Proof using Hwf Hseen.
    intros Htp. rewrite <- Hseen in Htp. apply elem_of_list_lookup in Htp as [a Ha]. exists a.
    intros p [b Hb]%elem_of_list_lookup. destruct (trns_post j a b tp p Ha Hb) as (i & x & Hi & Ht & Hp).
    exists i, x. split_and!; try done. apply selects_spec. left.
    assert (has_match : share_fp (jp_post x) p).
    { rewrite Hp. destruct (jw_mergeable _ Hwf x) as [[f Hf] _]; [by eapply elem_of_list_lookup_2|]. exists f. by rewrite Hp in Hf. }
    split; [by exists x|]. intros i' (y & Hy & Hs). eapply (wf_same j i' i y x); try done. by rewrite Hp.
  Qed.
  Lemma unseen_lookup k D tp p : k ∉ seen → parts !! k = Some D → tp ∈ D → p ∈ tp_posts tp → lookup_posting j (tp_date tp) p = VNew.
  Proof using Hwf Hda Hseen Hsep.
    intros Hk HD Htp Hp. apply matches_nothing_spec. split.
    - intros i (x & Hx & Hs). destruct (journal_source x) as (k' & D' & tp' & Hk' & HD' & Ht' & Hp' & _); [by eapply elem_of_list_lookup_2|].
      assert (k' = k) as -> by by eapply (parts_share k' k D' D tp' tp). done.
    - intros i (x & Hx & Hd & Hs). destruct (journal_source x) as (k' & D' & tp' & Hk' & HD' & Ht' & Hp' & Hd' & _); [by eapply elem_of_list_lookup_2|].
      eapply (sp_apart _ Hsep k' k D' D tp' tp); try done; [by intros ->|]. congruence.
  Qed.

  Lemma seen_skipped tp J : tp ∈ window parts seen → tp_posts tp ≠ [] → j_posts j `prefix_of` j_posts J → apply_trn j J tp = J.
  Proof using Hwf Hseen.
    intros Htp Hne Hpre. destruct (seen_lookup tp (tp_date tp) Htp) as [a Ha].
    assert (left_out j tp = false) as El.
    { apply to_merge_spec. split; [done|]. intros p Hp Hm%ambiguous_is. destruct (Ha p Hp) as (i & x & E & _). by rewrite E in Hm. }
    assert (∀ t d, foldl (apply_posting t d) (j_posts J) (zip (tp_posts tp) (verdicts j tp)) = j_posts J) as Ef.
    { intros t d. unfold verdicts. assert (∀ p, p ∈ tp_posts tp → ∃ i x, lookup_posting j (tp_date tp) p = VMerge i ∧ j_posts J !! i = Some x ∧ jp_post x = p) as Ha'.
      { intros p Hp. destruct (Ha p Hp) as (i & x & E & Hx & Ep & _). exists i, x. split_and!; [done| |done]. by eapply prefix_lookup. }
      clear -Ha'. induction (tp_posts tp) as [|p ps IH]; [done|]. simpl.
      destruct (Ha' p) as (i & x & E & Hx & Ep); [left|]. rewrite E. unfold apply_posting at 2. cbn [fst snd].
      rewrite list_alter_id' with (x := x); [|done|].
      - apply IH. intros q Hq. apply Ha'. by right.
      - destruct x. simpl in *. subst. by rewrite merge_posting_self. }
    unfold apply_trn. rewrite El. destruct (dests j tp ≫= _) as [|t ts] eqn:Ed.
    - exfalso. destruct (tp_posts tp) as [|p ps] eqn:Ep; [done|]. destruct (Ha p) as (i & x & E & Hx & _); [left|].
      assert (jp_trn x ∈ @nil nat) as Hin.
      { rewrite <- Ed. apply elem_of_list_bind. exists i. rewrite Hx. split; [by apply elem_of_list_singleton|].
        unfold dests, verdicts. rewrite Ep. simpl. rewrite E. simpl. left. }
      by apply elem_of_nil in Hin.
    - rewrite Ef. by destruct J.
  Qed.
  Lemma unseen_prefix k D tp J : k ∉ seen → parts !! k = Some D → tp ∈ D → j_posts j `prefix_of` j_posts J →
    j_posts j `prefix_of` j_posts (apply_trn j J tp).
  Proof using Hwf Hda Hseen Hsep.
    intros Hk HD Htp Hpre. unfold apply_trn. destruct (left_out j tp); [done|].
    assert (∀ t d, j_posts j `prefix_of` foldl (apply_posting t d) (j_posts J) (zip (tp_posts tp) (verdicts j tp))) as H.
    { intros t d. rewrite fold_all_new; [by apply prefix_app_r|]. intros [p v] Hin.
      apply elem_of_zip_r in Hin. unfold verdicts in Hin. apply elem_of_list_fmap in Hin as (q & -> & Hq). cbn [snd]. by eapply unseen_lookup. }
    destruct (_ ≫= _); apply H.
  Qed.
  Lemma window_new w : (∀ k D tp, k ∈ w → parts !! k = Some D → tp ∈ D → tp_posts tp ≠ []) →
    spec_merge j (window parts w) = spec_merge j (window parts (filter (.∉ seen) w)).
  Proof using Hwf Hda Hseen Hsep.
    intros Hne. unfold spec_merge. assert (j_posts j `prefix_of` j_posts j) as Hpre by done. revert Hpre. generalize j at 2 4 6.
    induction w as [|k w IH]; intros J Hpre; [done|].
    assert (∀ k D tp, k ∈ w → parts !! k = Some D → tp ∈ D → tp_posts tp ≠ []) as Hne' by (intros ???; intros; eapply Hne; [by right|done..]).
    rewrite filter_cons. change (window parts (k :: w)) with (default [] (parts !! k) ++ window parts w). rewrite foldl_app.
    destruct (decide (k ∉ seen)) as [Hk|Hk].
    - change (window parts (k :: filter (.∉ seen) w)) with (default [] (parts !! k) ++ window parts (filter (.∉ seen) w)). rewrite foldl_app.
      apply IH; [done|]. destruct (parts !! k) as [D|] eqn:ED; [|done]. simpl.
      assert (∀ tp, tp ∈ D → tp ∈ D) as Hin by done. revert Hin Hpre. generalize D at 1 3. clear IH. intros L. revert J.
      induction L as [|tp L IH]; intros J Hin Hpre; [done|]. simpl. apply IH; [intros; apply Hin; by right|].
      eapply unseen_prefix; [done..| |done]. apply Hin. left.
    - assert (foldl (apply_trn j) J (default [] (parts !! k)) = J) as ->; [|by apply IH].
      destruct (parts !! k) as [D|] eqn:ED; [|done]. simpl.
      assert (∀ tp, tp ∈ D → apply_trn j J tp = J) as H.
      { intros tp Htp. apply seen_skipped; [|eapply Hne; [left|done..]|done]. apply elem_window. exists k, D. split_and!; [|done..].
        by destruct (decide (k ∈ seen)). }
      clear -H. induction D as [|tp D IH]; [done|]. simpl. rewrite H by left. apply IH. intros; apply H; by right.
  Qed.
  Lemma window_acceptable w : NoDup w → acceptable j (window parts w).
  Proof using Hwf Hda Hseen Hsep.
    intros Hw. destruct (window_ok w Hw) as (H1 & H2 & H3).
    assert (∀ tp p, tp ∈ window parts w → p ∈ tp_posts tp → lookup_posting j (tp_date tp) p = VNew ∨ tp ∈ window parts seen) as Hcase.
    { intros tp p Htp Hp. apply elem_window in Htp as (k & D & Hk & HD & Ht). destruct (decide (k ∈ seen)) as [Hs|Hs].
      - right. apply elem_window. eauto.
      - left. by eapply unseen_lookup. }
    split; [done|done| | |].
    - intros p (tp & Hp & Htp)%elem_of_list_bind Hc%conflicting_spec.
      assert (lookup_posting j (tp_date tp) p = VConflict) as E.
      { unfold lookup_posting. destruct (fp_hits j p) as [|? [|? ?]]; simpl in Hc; [lia..|done]. }
      destruct (Hcase tp p Htp Hp) as [E'|Hs]; [by rewrite E in E'|].
      destruct (seen_lookup tp (tp_date tp) Hs) as [a Ha]. destruct (Ha p Hp) as (i & x & E' & _). by rewrite E in E'.
    - intros tp p q i k x y Htp _ Hp Hq Hi%selects_spec Hk%selects_spec Hx Hy.
      destruct (Hcase tp p Htp Hp) as [E|Hs]; [by rewrite E in Hi|].
      destruct (seen_lookup tp (tp_date tp) Hs) as [a Ha].
      destruct (Ha p Hp) as (i' & x' & Ei & Ex & _ & Et). destruct (Ha q Hq) as (k' & y' & Ek & Ey & _ & Et').
      rewrite Ei in Hi. rewrite Ek in Hk. simplify_eq. done.
    - intros a b a' b' tp tp' p p' i Ha Hb Ha' Hb' _ _ Hi%selects_spec Hk%selects_spec.
      assert (Hin : tp ∈ window parts w) by by eapply elem_of_list_lookup_2. assert (Hin' : tp' ∈ window parts w) by by eapply elem_of_list_lookup_2.
      assert (Hp : p ∈ tp_posts tp) by by eapply elem_of_list_lookup_2. assert (Hp' : p' ∈ tp_posts tp') by by eapply elem_of_list_lookup_2.
      destruct (Hcase tp p Hin Hp) as [E|Hs]; [by rewrite E in Hi|]. destruct (Hcase tp' p' Hin' Hp') as [E|Hs']; [by rewrite E in Hk|].
      destruct (seen_lookup tp (tp_date tp) Hs) as [c Hc]. destruct (seen_lookup tp' (tp_date tp') Hs') as [c' Hc'].
      destruct (Hc p Hp) as (i1 & x & Ei & Ex & Ep & _). destruct (Hc' p' Hp') as (i2 & y & Ek & Ey & Eq & _). rewrite Ei in Hi. rewrite Ek in Hk. simplify_eq.
      eapply same_place; try done. destruct (H1 (jp_post x)) as [[f Hf] _]; [by eapply elem_all_posts|]. by exists f.
  Qed.
End parts.

Lemma window_step parts m j seen ho w : separate parts → reachable m → represents m j → dates_agree j → journal_trns j = window parts seen →
  hash_order_ok ho → NoDup w → ∃ m' j', merge ho m (window parts w) = (m', Ok []) ∧ reachable m' ∧ represents m' j' ∧ dates_agree j' ∧
    journal_trns j' = window parts (seen ++ filter (.∉ seen) w).
Proof.
  intros Hsep Hr Hj Hda Hs Hho Hw. pose proof (reachable_wf m j Hr Hj) as Hwf.
  pose proof (window_ok parts Hsep w Hw) as (Hok1 & Hok2 & Hok3).
  destruct (proj2 (merge_ok_iff m j Hr Hj ho (window parts w) Hho)) as (m' & un & Hm); [by eapply window_acceptable|].
  destruct (merge_inv m j Hr Hj ho _ m' un Hho Hm) as (Hv & Hwf' & Hj' & Hun).
  assert (filter (λ tp, left_out j tp = true) (window parts w) = []) as El.
  { apply filter_none. intros tp Htp Hl%lo_of_spec. apply Hl. split; [by apply Hok3|]. intros p Hp Hm'%ambiguous_is.
    apply elem_window in Htp as (k & D & Hk & HD & Ht). destruct (decide (k ∈ seen)) as [Hks|Hks].
    - destruct (seen_lookup parts j seen Hwf Hs tp (tp_date tp)) as [a Ha]; [apply elem_window; eauto|].
      destruct (Ha p Hp) as (i & x & E & _). by rewrite E in Hm'.
    - erewrite (unseen_lookup parts Hsep j seen Hwf Hda Hs k D) in Hm'; done. }
  rewrite El in Hun. apply Forall2_nil_inv_l in Hun as ->.
  exists m', (spec_merge j (window parts w)). split_and!; [done| |done| |].
  - replace m' with (merge ho m (window parts w)).1 by by rewrite Hm. by constructor.
  - eapply (dates_kept m j Hr Hj ho _ m' []); try done. intros tp p i x h Htp _ Hp Hi%selects_spec Hx Hh.
    apply elem_window in Htp as (k & D & Hk & HD & Ht). destruct (decide (k ∈ seen)) as [Hks|Hks].
    + assert (tp ∈ journal_trns j) as [a Ha]%elem_of_list_lookup by (rewrite Hs; apply elem_window; eauto).
      pose proof Hp as [b Hb]%elem_of_list_lookup. destruct (trns_post j a b tp p Ha Hb) as (i' & x' & Hi' & Et & Ep).
      destruct (seen_lookup parts j seen Hwf Hs tp (tp_date tp)) as [a' Ha']; [apply elem_window; eauto|].
      destruct (Ha' p Hp) as (i2 & x2 & E2 & Hx2 & Ep2 & _). rewrite E2 in Hi. injection Hi as <-. rewrite Hx2 in Hx. injection Hx as <-.
      assert (i' = i2) as ->.
      { eapply (wf_same j i' i2 x' x2 Hwf); try done. destruct (jw_mergeable _ Hwf x') as [[f Hf] _]; [by eapply elem_of_list_lookup_2|].
        exists f. rewrite Ep2, <- Ep. done. }
      assert (x' = x2) as -> by congruence. subst a. unfold journal_trns in Ha. rewrite list_lookup_imap, Hh in Ha. cbn in Ha. injection Ha as <-. done.
    + by erewrite (unseen_lookup parts Hsep j seen Hwf Hda Hs k D) in Hi.
  - rewrite (window_new parts Hsep j seen Hwf Hda Hs).
    + rewrite spec_merge_all_new.
      * rewrite window_app, Hs. f_equal. apply filter_all. intros tp (k & D & Hk & HD & Ht)%elem_window. by apply (part_ok parts Hsep k D HD).
      * apply Hwf.
      * intros tp p (k & D & [Hk _]%elem_of_list_filter & HD & Ht)%elem_window Hp. by eapply (unseen_lookup parts Hsep j seen).
    + intros k D tp Hk HD Ht. by apply (part_ok parts Hsep k D HD).
Qed.

Lemma windows_run parts m j seen ws : separate parts → reachable m → represents m j → dates_agree j → journal_trns j = window parts seen → NoDup seen →
  Forall (λ hw : hash_order * list nat, hash_order_ok hw.1 ∧ NoDup hw.2) ws →
  ∃ m' j' seen', clean_run m (prod_map id (window parts) <$> ws) m' ∧ represents m' j' ∧ journal_trns j' = window parts seen' ∧
    NoDup seen' ∧ ∀ k, k ∈ seen' ↔ k ∈ seen ∨ ∃ w, w ∈ ws.*2 ∧ k ∈ w.
Proof.
  intros Hsep. revert m j seen. induction ws as [|[ho w] ws IH]; intros m j seen Hr Hj Hda Hs Hnd Hall.
  - exists m, j, seen. split_and!; [constructor|done..|]. intros k. split; [by left|]. intros [?|(w & Hw & _)]; [done|by apply elem_of_nil in Hw].
  - apply Forall_cons in Hall as [[Hho Hw] Hall]. simpl in *.
    destruct (window_step parts m j seen ho w Hsep Hr Hj Hda Hs Hho Hw) as (m1 & j1 & Hm1 & Hr1 & Hj1 & Hda1 & Hs1).
    destruct (IH m1 j1 _ Hr1 Hj1 Hda1 Hs1) as (m' & j' & seen' & Hrun & Hj' & Hs' & Hnd' & Hin); [|done|].
    { apply NoDup_app. split_and!; [done| |by apply NoDup_filter]. intros k Hk [? _]%elem_of_list_filter. done. }
    exists m', j', seen'. split_and!; try done; [by econstructor|]. intros k. rewrite Hin, elem_of_app, elem_of_list_filter.
    setoid_rewrite elem_of_cons. destruct (decide (k ∈ seen)); naive_solver.
Qed.
(** C86 *)
Lemma windows_merge parts ws : separate parts → Forall (λ hw : hash_order * list nat, hash_order_ok hw.1 ∧ NoDup hw.2) ws →
  ∃ m seen, clean_run merger_new (prod_map id (window parts) <$> ws) m ∧ covers ws.*2 seen ∧
    ∀ ho, hash_order_ok ho → build ho m = Ok (stable_sort (by_key tp_date) (window parts seen)).
Proof.
  intros Hsep Hall. destruct (windows_run parts merger_new journal_new [] ws Hsep) as (m & j & seen & Hrun & Hj & Hs & Hnd & Hin).
  - constructor.
  - apply rep_new.
  - intros x h Hx. by apply elem_of_nil in Hx.
  - done.
  - constructor.
  - done.
  - exists m, seen. split_and!; [done| |].
    + split; [done|]. intros k. rewrite Hin. split; [|by right]. intros [Hk|?]; [by apply elem_of_nil in Hk|done].
    + intros ho Hho. rewrite <- Hs. by apply build_refines.
Qed.
(** Days sort themselves. *)
Lemma window_date parts d w : days tp_date parts → NoDup w →
  filter (λ tp, tp_date tp = d) (window parts w) = [] ∨
  ∃ k D tp, k ∈ w ∧ parts !! k = Some D ∧ tp ∈ D ∧ tp_date tp = d ∧ filter (λ tp, tp_date tp = d) (window parts w) = D.
Proof.
  intros Hd. induction w as [|k w IH]; intros Hnd; [by left|]. apply NoDup_cons in Hnd as [Hk Hnd].
  change (window parts (k :: w)) with (default [] (parts !! k) ++ window parts w). rewrite filter_app.
  destruct (parts !! k) as [D|] eqn:ED; simpl.
  - destruct (filter (λ tp, tp_date tp = d) D) as [|tp l] eqn:Ef.
    + destruct (IH Hnd) as [->|(k' & D' & tp & Hk' & HD' & Ht & Edt & ->)]; [by left|]. right. exists k', D', tp. split_and!; try done. by right.
    + right. assert (tp ∈ filter (λ tp, tp_date tp = d) D) as [Edt Ht]%elem_of_list_filter by (rewrite Ef; left).
      exists k, D, tp. split_and!; try done; [left|]. rewrite <- Ef.
      rewrite filter_all. 2:{ intros x Hx. rewrite <- Edt. by apply (Hd k k D D x tp). }
      rewrite (filter_none _ (window parts w)); [apply app_nil_r|]. intros x (k' & D' & Hk' & HD' & Hx)%elem_window Ex.
      assert (k' = k) as -> by (apply (Hd k' k D' D x tp); try done; congruence). done.
  - destruct (IH Hnd) as [->|(k' & D' & tp & Hk' & HD' & Ht & Edt & ->)]; [by left|]. right. exists k', D', tp. split_and!; try done. by right.
Qed.
Lemma days_order parts v w : days tp_date parts → NoDup v → NoDup w → (∀ k, k ∈ v ↔ k ∈ w) →
  stable_sort (by_key tp_date) (window parts v) = stable_sort (by_key tp_date) (window parts w).
Proof.
  intros Hd Hv Hw Hiff. apply (stable_sort_unique tp_date).
  - apply (stable_sort_sorted (by_key tp_date)); [apply by_key_total|apply by_key_trans].
  - intros d. rewrite stable_sort_filter.
    2:{ intros a b <- E. unfold by_key. rewrite E. apply date_leb_refl. }
    assert (∀ v w, NoDup v → NoDup w → (∀ k, k ∈ v → k ∈ w) → filter (λ tp, tp_date tp = d) (window parts v) = [] ∨
      filter (λ tp, tp_date tp = d) (window parts v) = filter (λ tp, tp_date tp = d) (window parts w)) as H.
    { clear v w Hv Hw Hiff. intros v w Hv Hw Hin. destruct (window_date parts d v Hd Hv) as [E|(k & D & tp & Hk & HD & Ht & Edt & E)]; [by left|].
      right. rewrite E. destruct (window_date parts d w Hd Hw) as [E'|(k' & D' & tp' & Hk' & HD' & Ht' & Edt' & E')].
      - exfalso. assert (tp ∈ filter (λ tp, tp_date tp = d) (window parts w)) as Hi.
        { apply elem_of_list_filter. split; [done|]. apply elem_window. exists k, D. auto. }
        rewrite E' in Hi. by apply elem_of_nil in Hi.
      - rewrite E'. assert (k = k') as -> by (apply (Hd k k' D D' tp tp'); try done; congruence). by simplify_eq. }
    destruct (H v w) as [E|E]; [done..|naive_solver| |done].
    destruct (H w v) as [E'|E']; [done..|naive_solver| |]; congruence.
Qed.
Lemma days_merge parts ws : journal_ok (concat parts) → days tp_date parts →
  Forall (λ hw : hash_order * list nat, hash_order_ok hw.1 ∧ NoDup hw.2) ws →
  ∃ m, clean_run merger_new (prod_map id (window parts) <$> ws) m ∧
    ∀ seen ho, covers ws.*2 seen → hash_order_ok ho → build ho m = Ok (stable_sort (by_key tp_date) (window parts seen)).
Proof.
  intros Hok Hd Hall. assert (separate parts) as Hsep.
  { split; [done|]. intros i k D E tp tp' p q Hne HD HE Ht Ht' _ _ Edt. destruct Hne. by apply (Hd i k D E tp tp'). }
  destruct (windows_merge parts ws Hsep Hall) as (m & s0 & Hrun & [Hn0 Hi0] & Hb). exists m. split; [done|].
  intros seen ho [Hn Hi] Hho. rewrite (Hb ho Hho). f_equal. apply days_order; [done..|]. intros k. by rewrite Hi0, Hi.
Qed.

(** The parts as a function of their number. *)
Lemma window_of_fun {A} (f : nat → list A) n w : (∀ k, k ∈ w → k < n) → window (f <$> seq 0 n) w = w ≫= f.
Proof.
  intros H. unfold window. induction w as [|k w IH]; [done|]. rewrite !bind_cons, IH by (intros; apply H; by right). f_equal.
  rewrite list_lookup_fmap, lookup_seq_lt by (apply H; left). done.
Qed.
Lemma bind_cond {A} (f g : nat → list A) w : (∀ k, k ∈ w → f k = g k) → w ≫= f = w ≫= g.
Proof. induction w as [|k w IH]; intros H; [done|]. rewrite !bind_cons, (H k) by left. f_equal. apply IH. intros; apply H. by right. Qed.
Lemma concat_fmap_bind {A B} (f : A → list B) l : concat (f <$> l) = l ≫= f.
Proof. induction l as [|a l IH]; [done|]. rewrite fmap_cons, bind_cons. simpl. by rewrite IH. Qed.
Lemma bind_empty {A B} (f : A → list B) l : (∀ a, a ∈ l → f a = []) → l ≫= f = [].
Proof. induction l as [|a l IH]; intros H; [done|]. rewrite bind_cons, (H a) by left. apply IH. intros; apply H. by right. Qed.
Lemma filter_split (seen l : list nat) : l ≡ₚ filter (.∈ seen) l ++ filter (.∉ seen) l.
Proof.
  induction l as [|k l IH]; [done|]. rewrite !filter_cons. destruct (decide (k ∈ seen)).
  - rewrite decide_False by auto. simpl. by f_equiv.
  - rewrite decide_True by done. rewrite <- Permutation_middle. by f_equiv.
Qed.
Lemma pieces_merge (f : nat → list transaction_postings) seen ws hos :
  journal_ok (seen ≫= f) →
  (∀ i k a b, i ∈ seen → k ∈ seen → a ∈ f i → b ∈ f k → tp_date a = tp_date b ↔ i = k) →
  covers ws seen → Forall NoDup ws → length hos = length ws → Forall hash_order_ok hos →
  ∃ m, clean_run merger_new (zip hos ((λ w, w ≫= f) <$> ws)) m ∧
    ∀ ho, hash_order_ok ho → build ho m = Ok (stable_sort (by_key tp_date) (seen ≫= f)).
Proof.
  intros Hok Hd Hcov Hws Hlen Hhos.
  set (g := λ k, if decide (k ∈ seen) then f k else []). set (n := S (max_list seen)).
  assert (∀ w, (∀ k, k ∈ w → k ∈ seen) → window (g <$> seq 0 n) w = w ≫= f) as Hwin.
  { intros w Hw. rewrite window_of_fun.
    - apply bind_cond. intros k Hk. unfold g. by rewrite decide_True by auto.
    - intros k Hk%Hw. unfold n. pose proof (max_list_elem_of_le k seen Hk). lia. }
  assert (∀ w, w ∈ ws → ∀ k, k ∈ w → k ∈ seen) as Hsub by (intros w Hw k Hk; apply Hcov; eauto).
  destruct (days_merge (g <$> seq 0 n) (zip hos ws)) as (m & Hrun & Hb).
  - assert (concat (g <$> seq 0 n) ≡ₚ seen ≫= f) as Hperm.
    { rewrite concat_fmap_bind. rewrite <- (bind_cond g f) by (intros k Hk; unfold g; by rewrite decide_True).
      assert (seq 0 n ≡ₚ seen ++ filter (.∉ seen) (seq 0 n)) as Hp.
      { rewrite (filter_split seen (seq 0 n)) at 1. f_equiv. apply NoDup_Permutation.
        - apply NoDup_filter, NoDup_seq.
        - apply Hcov.
        - intros k. rewrite elem_of_list_filter, elem_of_seq. unfold n. split; [naive_solver|]. intros Hk. split; [done|].
          pose proof (max_list_elem_of_le k seen Hk). lia. }
      rewrite Hp, bind_app. rewrite (bind_empty g (filter _ _)).
      - by rewrite app_nil_r.
      - intros k [Hk _]%elem_of_list_filter. unfold g. by rewrite decide_False. }
    destruct Hok as (H1 & H2 & H3). split_and!.
    + intros p. rewrite (all_posts_perm _ _ Hperm). apply H1.
    + rewrite (all_posts_perm _ _ Hperm). apply H2.
    + intros tp. rewrite Hperm. apply H3.
  - intros i k D E a b HD HE Ha Hb. rewrite list_lookup_fmap in HD, HE.
    destruct (seq 0 n !! i) as [i'|] eqn:Ei; [|done]. destruct (seq 0 n !! k) as [k'|] eqn:Ek; [|done].
    apply lookup_seq in Ei as [-> _], Ek as [-> _]. simpl in HD, HE. injection HD as <-. injection HE as <-.
    unfold g in Ha, Hb. destruct (decide (i ∈ seen)); [|by apply elem_of_nil in Ha]. destruct (decide (k ∈ seen)); [|by apply elem_of_nil in Hb].
    by apply Hd.
  - apply Forall_forall. intros [ho w] Hin. split; cbn.
    + apply elem_of_zip_l in Hin. by eapply Forall_forall in Hhos.
    + apply elem_of_zip_r in Hin. by eapply Forall_forall in Hws.
  - exists m. split.
    + assert (prod_map id (window (g <$> seq 0 n)) <$> zip hos ws = zip hos ((λ w, w ≫= f) <$> ws)) as <-; [|done].
      clear -Hwin Hsub Hlen. revert hos Hlen. induction ws as [|w ws IH]; intros [|ho hos] Hlen; try done. simpl. f_equal.
      * unfold prod_map. simpl. f_equal. apply Hwin. apply Hsub. left.
      * apply IH; [|by simpl in Hlen; lia]. intros; eapply Hsub; [by right|done].
    + intros ho Hho. rewrite (Hb seen ho); [|by rewrite snd_zip by lia|done]. by rewrite Hwin.
Qed.

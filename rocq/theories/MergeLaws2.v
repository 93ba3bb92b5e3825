(** Proofs of the claims about merging, continued. *)
From Verif Require Import Base Types CommentModel MergeModel SpecBase BaseProofs MergeSpec MergeClaims
  MergeProofs MergePending MergeApply MergeBuild MergeClosed MergeLemmas MergePlaces MergeLaws.
From Coq Require Import Lia QArith.
Local Open Scope nat_scope.

(** ** Unmerged transactions *)
Lemma Forall2_impl_l {A B} (R S : A → B → Prop) l k :
  (∀ a b, a ∈ l → R a b → S a b) → Forall2 R l k → Forall2 S l k.
Proof.
  intros H HR. induction HR as [|a b l k Hab HR IH]; constructor; [apply H; [left|done]|].
  apply IH. intros; apply H; [by right|done].
Qed.
Lemma returned_as_unmerged j tp tp' : returned_as j tp tp' → returned_unmerged tp tp'.
Proof.
  intros [E H]. split; [done|]. eapply Forall2_impl; [exact H|]. intros p p' Hp. simpl in Hp.
  destruct (lookup_posting j (tp_date tp) p) as [| |l|]; try (subst; naive_solver).
  destruct Hp as (? & ? & ? & fs & _ & Ht). split_and!; try done.
  intros t. unfold has_tag. rewrite Ht, elem_of_union, elem_of_list_to_set, elem_of_list_fmap.
  split; [|naive_solver]. intros [?|(f & -> & Hf)]; [by left|right].
  split; [right; eauto|]. by exists f.
Qed.
Lemma returned_as_handed j tp tp' : returned_as j tp tp' → handed_back j tp tp'.
Proof.
  intros [E H]. split; [done|]. eapply Forall2_impl; [exact H|]. intros p p' Hp. simpl in Hp.
  rewrite ambiguous_is.
  destruct (lookup_posting j (tp_date tp) p) as [| |l|] eqn:El; try (right; split; done).
  left. split; [done|].
  assert (l = soft_hits j (tp_date tp) p) as ->.
  { unfold lookup_posting in El. destruct (fp_hits j p) as [|? [|? ?]]; try done.
    destruct (soft_hits j (tp_date tp) p) as [|? [|? ?]]; simplify_eq; done. }
  destruct Hp as (? & ? & ? & fs & HF & Ht). split_and!; try done.
  exists (soft_hits j (tp_date tp) p), fs. split_and!; try done.
  - apply NoDup_positions.
  - intros i. by rewrite soft_match_hits.
  - intros t. unfold has_tag. rewrite Ht, elem_of_union, elem_of_list_to_set, elem_of_list_fmap. naive_solver.
Qed.
Lemma returned_as_agree j tp a b : returned_as j tp a → returned_as j tp b → equal_but_candidates a b.
Proof.
  intros [E1 H1] [E2 H2]. split; [congruence|].
  remember (tp_posts tp) as ps eqn:Eps. clear Eps E1 E2.
  revert H2. generalize (tp_posts b). induction H1 as [|p q ps qs Hq H1 IH]; intros rs H2; inversion_clear H2 as [|? r ? rs' Hr H2'].
  - constructor.
  - constructor; [|by apply IH]. simpl in *.
    destruct (lookup_posting j (tp_date tp) p) as [| |l|]; try (subst; naive_solver).
    destruct Hq as (Q1 & Q2 & Q3 & fs & _ & Qt), Hr as (R1 & R2 & R3 & gs & _ & Rt).
    split_and!; try congruence. intros t Ht. unfold has_tag. rewrite Qt, Rt.
    rewrite !elem_of_union, !elem_of_list_to_set, !elem_of_list_fmap.
    split; (intros [?|(f & -> & _)]; [by left|]); destruct Ht; by exists f.
Qed.
Lemma Forall2_agree {A B} (R : A → B → Prop) (S : B → B → Prop) l k k' :
  (∀ a b c, R a b → R a c → S b c) → Forall2 R l k → Forall2 R l k' → Forall2 S k k'.
Proof.
  intros H H1. revert k'. induction H1 as [|a b l k Hab H1 IH]; intros k' H2; inversion_clear H2; constructor; eauto.
Qed.
Definition lo_of (j : journal) (tp : transaction_postings) : bool := left_out j tp.
Lemma lo_of_spec j tp : left_out j tp = true ↔ ¬ to_merge j tp.
Proof. rewrite to_merge_spec. destruct (left_out j tp); naive_solver. Qed.

Lemma filter_ext' {A} (P Q : A → Prop) `{∀ x, Decision (P x), ∀ x, Decision (Q x)} (l : list A) :
  (∀ x, x ∈ l → P x ↔ Q x) → filter P l = filter Q l.
Proof.
  induction l as [|x l IH]; intros H'; [done|].
  assert (filter P l = filter Q l) as E by (apply IH; intros; apply H'; by right).
  destruct (decide (P x)) as [Hp|Hp].
  - rewrite !filter_cons_True; [by f_equal| |done]. apply H'; [left|done].
  - rewrite !filter_cons_False; [done| |done]. rewrite <- H'; [done|left].
Qed.

(** ** Dropping the transactions that are left out *)
Lemma spec_merge_kept j tps :
  spec_merge j (filter (λ tp, left_out j tp = false) tps) = spec_merge j tps.
Proof.
  unfold spec_merge. enough (∀ J, foldl (apply_trn j) J (filter (λ tp, left_out j tp = false) tps) = foldl (apply_trn j) J tps) by done.
  induction tps as [|tp tps IH]; intros J; [done|]. destruct (left_out j tp) eqn:E.
  - rewrite filter_cons_False by by rewrite E. rewrite IH. simpl. unfold apply_trn at 3. by rewrite E.
  - rewrite filter_cons_True by done. simpl. apply IH.
Qed.
Lemma fps_distinct_sublist l k : sublist l k → fps_distinct k → fps_distinct l.
Proof.
  intros Hs. induction Hs as [|x l k Hs IH|x l k Hs IH]; [done|..]; rewrite !fps_distinct_cons; intros [H1 H2].
  - split; [|auto]. intros q Hq. apply H1. eapply elem_of_submseteq; [done|]. by apply sublist_submseteq.
  - auto.
Qed.
Lemma sublist_filter' {A} (P : A → Prop) `{∀ x, Decision (P x)} (l : list A) : sublist (filter P l) l.
Proof.
  induction l as [|x l IH]; [done|]. destruct (decide (P x)).
  - rewrite filter_cons_True by done. by constructor.
  - rewrite filter_cons_False by done. by constructor.
Qed.
Lemma sublist_bind {A B} (f : A → list B) l k : sublist l k → sublist (l ≫= f) (k ≫= f).
Proof.
  intros Hs. induction Hs as [|x l k Hs IH|x l k Hs IH]; [done|..]; rewrite ?bind_cons.
  - by apply sublist_app.
  - by apply sublist_inserts_l.
Qed.
Lemma sublist_elem {A} (l k : list A) x : sublist l k → x ∈ l → x ∈ k.
Proof. intros Hs Hx. eapply elem_of_submseteq; [done|]. by apply sublist_submseteq. Qed.
Lemma NoDup_sublist {A} (l k : list A) : sublist l k → NoDup k → NoDup l.
Proof.
  intros Hs. induction Hs as [|x l k Hs IH|x l k Hs IH]; rewrite ?NoDup_cons; [done|..].
  - intros [H1 H2]. split; [|auto]. intros Hx. apply H1. by eapply sublist_elem.
  - intros [_ ?]. auto.
Qed.
Lemma valid_set_sublist j tps tps' : sublist tps' tps → valid_set j tps → valid_set j tps'.
Proof.
  intros Hs [H1 H2 H3 H4 H5]. split.
  - intros p Hp. apply H1. eapply sublist_elem; [|done]. by apply sublist_bind.
  - eapply fps_distinct_sublist; [|done]. by apply sublist_bind.
  - intros tp p Htp. apply H3. by eapply sublist_elem.
  - intros tp i k x y Htp. apply H4. by eapply sublist_elem.
  - unfold all_dests in *. eapply NoDup_sublist; [|done]. by apply sublist_bind.
Qed.

(** ** Everything matches nothing *)
Lemma journal_trns_snoc ts ps h qs d :
  (∀ x, x ∈ ps → jp_trn x < length ts) →
  journal_trns (Journal (ts ++ [h]) (ps ++ (JP (length ts) d <$> qs))) =
  journal_trns (Journal ts ps) ++ [TP h qs].
Proof.
  intros Hlt. unfold journal_trns. cbn [j_trns j_posts]. rewrite imap_app. f_equal.
  - apply imap_ext_lookup. intros t h' Ht. apply lookup_lt_Some in Ht. f_equal.
    rewrite filter_app, fmap_app. rewrite <- (app_nil_r (jp_post <$> filter _ ps)) at 2. f_equal.
    replace (filter _ (JP (length ts) d <$> qs)) with (@nil jpost); [done|].
    symmetry.
    induction qs as [|q qs IH]; [done|]. rewrite fmap_cons, filter_cons_False; [done|]. simpl. lia.
  - simpl. rewrite Nat.add_0_r. do 2 f_equal. rewrite filter_app, fmap_app.
    replace (filter (λ x, jp_trn x = length ts) ps) with (@nil jpost).
    2:{ induction ps as [|x ps IH]; [done|]. rewrite filter_cons_False.
        - apply IH. intros; apply Hlt; by right.
        - assert (jp_trn x < length ts) by (apply Hlt; left). lia. }
    simpl. induction qs as [|q qs IH]; [done|]. rewrite fmap_cons, filter_cons_True by done. simpl. by f_equal.
Qed.
Lemma fold_all_new t d ps pvs : (∀ pv, pv ∈ pvs → pv.2 = VNew) →
  foldl (apply_posting t d) ps pvs = ps ++ (JP t d <$> pvs.*1).
Proof.
  revert ps. induction pvs as [|[p v] pvs IH]; intros ps H; [by rewrite app_nil_r|].
  cbn [foldl]. assert (v = VNew) as -> by (apply (H (p, v)); left).
  unfold apply_posting at 2. cbn [fst snd]. rewrite IH by (intros; apply H; by right).
  rewrite <- app_assoc. done.
Qed.
Lemma spec_merge_all_new j tps :
  (∀ x, x ∈ j_posts j → jp_trn x < length (j_trns j)) →
  (∀ tp p, tp ∈ tps → p ∈ tp_posts tp → lookup_posting j (tp_date tp) p = VNew) →
  journal_trns (spec_merge j tps) = journal_trns j ++ filter (λ tp, tp_posts tp ≠ []) tps.
Proof.
  intros Hlt Hnew. unfold spec_merge.
  enough (∀ J, (∀ x, x ∈ j_posts J → jp_trn x < length (j_trns J)) →
    journal_trns (foldl (apply_trn j) J tps) = journal_trns J ++ filter (λ tp, tp_posts tp ≠ []) tps) as H by by apply H.
  clear Hlt. induction tps as [|tp tps IH]; intros J HJ; [by rewrite app_nil_r|].
  cbn [foldl]. destruct (decide (tp_posts tp = [])) as [E|E].
  - rewrite filter_cons_False by auto. unfold apply_trn at 2, left_out. rewrite E.
    apply IH; [|done]. intros; apply Hnew; [by right|done].
  - rewrite filter_cons_True by done.
    assert (verdicts j tp = (λ _, VNew) <$> tp_posts tp) as Ev.
    { unfold verdicts. apply list_fmap_ext. intros ? p Hp%elem_of_list_lookup_2. apply Hnew; [left|done]. }
    assert (left_out j tp = false) as El.
    { apply to_merge_spec. split; [done|]. intros p Hp Ha%ambiguous_is. rewrite Hnew in Ha; [done|left|done]. }
    assert (dests j tp = []) as Ed.
    { unfold dests. rewrite Ev. clear. induction (tp_posts tp); done. }
    unfold apply_trn at 2. rewrite El, Ed. simpl.
    rewrite fold_all_new, fst_zip.
    + rewrite IH.
      * rewrite journal_trns_snoc by done. destruct J. rewrite <- app_assoc. destruct tp. done.
      * intros; apply Hnew; [by right|done].
      * cbn [j_posts j_trns]. intros x Hx. rewrite app_length. simpl.
        apply elem_of_app in Hx as [Hx|Hx]; [specialize (HJ x Hx); lia|].
        apply elem_of_list_fmap in Hx as (q & -> & _). simpl. lia.
    + unfold verdicts. by rewrite fmap_length.
    + rewrite Ev. intros [p v] Hin. apply elem_of_zip_r, elem_of_list_fmap in Hin as (? & -> & _). done.
Qed.
Lemma sort_sort_app l k :
  stable_sort (by_key tp_date) (stable_sort (by_key tp_date) l ++ k) = stable_sort (by_key tp_date) (l ++ k).
Proof.
  apply (stable_sort_unique tp_date).
  - apply (stable_sort_sorted (by_key tp_date)); [apply by_key_total|apply by_key_trans].
  - intros d. assert (∀ a b, tp_date a = d → tp_date b = d → by_key tp_date a b = true) as H.
    { intros a b <- E. unfold by_key. rewrite E. apply date_leb_refl. }
    rewrite stable_sort_filter by done. rewrite !filter_app. by rewrite stable_sort_filter by done.
Qed.
Lemma left_out_all_new j (tps : list transaction_postings) :
  (∀ tp p, tp ∈ tps → p ∈ tp_posts tp → lookup_posting j (tp_date tp) p = VNew) →
  filter (λ tp, left_out j tp = true) tps = filter (λ tp, tp_posts tp = []) tps.
Proof.
  intros H. apply filter_ext'. intros tp Htp. rewrite lo_of_spec. unfold to_merge. split.
  - intros Hn. destruct (decide (tp_posts tp = [])) as [|Hne]; [done|]. destruct Hn. split; [done|].
    intros p Hp Ha%ambiguous_is. by rewrite (H tp p Htp Hp) in Ha.
  - intros E [? _]. done.
Qed.
Lemma returned_empty j (tps un : list transaction_postings) : Forall2 (returned_as j) (filter (λ tp, tp_posts tp = []) tps) un →
  un = filter (λ tp, tp_posts tp = []) tps.
Proof.
  intros H. assert (∀ tp, tp ∈ filter (λ tp, tp_posts tp = []) tps → tp_posts tp = []) as He.
  { intros tp [? _]%elem_of_list_filter. done. }
  induction H as [|tp tp' l l' [E1 E2] H IH]; [done|].
  rewrite IH by (intros; apply He; by right). f_equal.
  assert (tp_posts tp = []) as Ep by (apply He; left). rewrite Ep in E2.
  apply Forall2_nil_inv_l in E2. destruct tp, tp'; simpl in *; congruence.
Qed.

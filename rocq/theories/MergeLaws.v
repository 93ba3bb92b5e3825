(** Proofs of the claims about merging. *)
From Verif Require Import Base Types CommentModel MergeModel SpecBase BaseProofs MergeSpec MergeClaims
  MergeProofs MergePending MergeApply MergeBuild MergeClosed MergeLemmas MergePlaces.
From Coq Require Import Lia QArith.
Local Open Scope nat_scope.

(** ** Sorting *)
Section sorting.
  Context {A : Type} (leb : A → A → bool).
  Context (Htot : ∀ a b, leb a b = true ∨ leb b a = true).
  Context (Htr : ∀ a b c, leb a b = true → leb b c = true → leb a c = true).
  Local Notation le := (λ a b, leb a b = true).

  Lemma sort_insert_sublist x l k : sublist l k → StronglySorted le k →
    sublist (sort_insert leb x l) (sort_insert leb x k).
  Proof using Htr.
    intros Hs. induction Hs as [|y l k Hs IH|y l k Hs IH]; intros Hk; simpl; [done|..].
    - apply StronglySorted_inv in Hk as [Hk Hy]. destruct (leb x y).
      + by do 2 constructor.
      + constructor. auto.
    - apply StronglySorted_inv in Hk as [Hk Hy]. destruct (leb x y) eqn:E.
      + rewrite sort_insert_head; [by do 2 constructor|].
        apply Forall_forall. intros z Hz. eapply Htr; [done|]. rewrite Forall_forall in Hy. apply Hy.
        eapply elem_of_submseteq; [done|]. by apply sublist_submseteq.
      + constructor. auto.
  Qed.
  Lemma stable_sort_sublist l k : sublist l k → sublist (stable_sort leb l) (stable_sort leb k).
  Proof using Htot Htr.
    intros Hs. induction Hs as [|y l k Hs IH|y l k Hs IH]; simpl; [done|..].
    - apply sort_insert_sublist; [done|]. by apply stable_sort_sorted.
    - etrans; [done|]. generalize (stable_sort leb k). clear. intros k.
      induction k as [|z k IH]; simpl; [by constructor|]. destruct (leb y z); [by constructor|by constructor].
  Qed.
End sorting.
Lemma Forall2_sort {A B} (R : A → B → Prop) leb leb' l k :
  (∀ a b c d, R a b → R c d → leb a c = leb' b d) →
  Forall2 R l k → Forall2 R (stable_sort leb l) (stable_sort leb' k).
Proof.
  intros HR H. induction H as [|a b l k Hab H IH]; simpl; [done|].
  revert IH. generalize (stable_sort leb l), (stable_sort leb' k). intros l' k' IH.
  induction IH as [|c d l' k' Hcd IH IH']; simpl; [by repeat constructor|].
  rewrite (HR _ _ _ _ Hab Hcd). destruct (leb' b d); repeat constructor; auto.
Qed.

(** ** Positions of postings in the built journal *)
Definition rank (ps : list jpost) (i : nat) (t : nat) : nat := length (filter (λ x, jp_trn x = t) (take i ps)).
Lemma rank_lookup ps i x : ps !! i = Some x →
  filter (λ y, jp_trn y = jp_trn x) ps !! rank ps i (jp_trn x) = Some x.
Proof.
  intros Hi. unfold rank. rewrite <- (take_drop i ps) at 2. rewrite filter_app, lookup_app_r by done.
  rewrite Nat.sub_diag, (drop_S _ _ _ Hi), filter_cons_True by done. done.
Qed.
Lemma rank_mono ps i k x : ps !! i = Some x → i < k → rank ps i (jp_trn x) < rank ps k (jp_trn x).
Proof.
  intros Hi Hlt. unfold rank. rewrite <- (take_drop i (take k ps)).
  rewrite filter_app, app_length, take_take, Nat.min_l by lia.
  rewrite (drop_S _ x i); [rewrite filter_cons_True by done; simpl; lia|].
  rewrite lookup_take; done.
Qed.
Lemma rank_inj ps i k x y : ps !! i = Some x → ps !! k = Some y → jp_trn x = jp_trn y →
  rank ps i (jp_trn x) = rank ps k (jp_trn y) → i = k.
Proof.
  intros Hi Hk Et E. destruct (lt_eq_lt_dec i k) as [[Hlt|?]|Hlt]; [|done|].
  - apply (rank_mono ps i k x Hi) in Hlt. rewrite Et in *. lia.
  - apply (rank_mono ps k i y Hk) in Hlt. rewrite Et in *. lia.
Qed.

Lemma built_place ho m j out : hash_order_ok ho → represents m j → journal_wf j → build ho m = Ok out →
  ∃ f : nat → nat * nat,
    (∀ i x, j_posts j !! i = Some x → ∃ tp, out !! (f i).1 = Some tp ∧
       tp_posts tp !! (f i).2 = Some (jp_post x) ∧ j_trns j !! jp_trn x = Some (tp_trn tp)) ∧
    (∀ i k x y, j_posts j !! i = Some x → j_posts j !! k = Some y →
       (jp_trn x = jp_trn y ↔ (f i).1 = (f k).1) ∧ (f i = f k → i = k)).
Proof.
  intros Hho Hj Hwf ->%(build_inv ho m j); [|done..].
  assert (journal_trns j ≡ₚ stable_sort (by_key tp_date) (journal_trns j)) as Hp
    by (symmetry; apply stable_sort_perm).
  apply Permutation_inj in Hp as (_ & g & Hg & Hlk).
  set (t_of := λ i, match j_posts j !! i with Some x => jp_trn x | None => 0 end).
  exists (λ i, (g (t_of i), rank (j_posts j) i (t_of i))). split.
  - intros i x Hx. simpl. assert (t_of i = jp_trn x) as -> by (unfold t_of; by rewrite Hx).
    assert (jp_trn x < length (j_trns j)) as Ht.
    { eapply jw_parent; [done|]. by eapply elem_of_list_lookup_2. }
    apply lookup_lt_is_Some in Ht as [h Hh].
    rewrite <- Hlk. unfold journal_trns. rewrite list_lookup_imap, Hh. eexists. split; [done|].
    simpl. split; [|done]. by rewrite list_lookup_fmap, (rank_lookup _ _ _ Hx).
  - intros i k x y Hx Hy.
    assert (t_of i = jp_trn x) as Ei by (unfold t_of; by rewrite Hx).
    assert (t_of k = jp_trn y) as Ek by (unfold t_of; by rewrite Hy).
    simpl. rewrite Ei, Ek. split.
    + split; [by intros ->|]. by intros E%Hg.
    + intros [= E1%Hg E2]. by eapply rank_inj.
Qed.

Section laws.
  Context (m : merger) (j : journal) (Hr : reachable m) (Hj : represents m j).
  Let Hwf : journal_wf j := reachable_wf m j Hr Hj.

  Lemma merge_inv ho tps m' un : hash_order_ok ho → merge ho m tps = (m', Ok un) →
    valid_set j tps ∧ journal_wf (spec_merge j tps) ∧ represents m' (spec_merge j tps) ∧
    Forall2 (returned_as j) (filter (λ tp, left_out j tp = true) tps) un.
  Proof.
    intros Hho E. destruct (merge_cases ho m j tps m' _ Hho Hj Hwf E) as [(? & ? & ? & un' & [= <-] & ?)|(_ & _ & e & ?)];
      [done|done].
  Qed.

  (** C01 *)
  Lemma failed_unchanged ho tps m' e : hash_order_ok ho → merge ho m tps = (m', Err e) → m' = m.
  Proof.
    intros Hho E. destruct (merge_cases ho m j tps m' _ Hho Hj Hwf E) as [(? & ? & ? & un & ? & ?)|(_ & ? & _)]; done.
  Qed.
  (** C02 *)
  Lemma never_panics ho tps : hash_order_ok ho →
    (merge ho m tps).2 ≠ Panic ∧ ∃ out, build ho m = Ok out.
  Proof.
    intros Hho. split; [|eexists; by apply build_refines].
    destruct (merge ho m tps) as [m' r] eqn:E.
    destruct (merge_cases ho m j tps m' _ Hho Hj Hwf E) as [(? & ? & ? & un & -> & ?)|(_ & ? & e & ->)]; done.
  Qed.
  (** C04 *)
  Lemma built_distinct ho out : hash_order_ok ho → build ho m = Ok out → fps_distinct (all_posts out).
  Proof.
    intros Hho Hb. rewrite (built_posts_perm ho m j out) by done. apply Hwf.
  Qed.

  (** C24 *)
  Lemma valid_set_declarative tps : valid_set j tps ↔ acceptable j tps.
  Proof.
    clear Hr Hj Hwf.
    assert (∀ tp i, tp ∈ tps → i ∈ dests j tp ↔ ∃ p, p ∈ tp_posts tp ∧ selects j (tp_date tp) p i) as Hd.
    { intros tp i _. unfold dests, verdicts. rewrite elem_of_list_omap. split.
      - intros (v & Hv & E). apply elem_of_list_fmap in Hv as (p & -> & Hp).
        exists p. split; [done|]. apply selects_spec. by destruct (lookup_posting j (tp_date tp) p); simplify_eq.
      - intros (p & Hp & Hs%selects_spec). exists (VMerge i). split; [|done]. apply elem_of_list_fmap. eauto. }
    split.
    - intros [H1 H2 H3 H4 H5]. split; [done|done|..].
      + intros p (tp & Hp & Htp)%elem_of_list_bind Hc%conflicting_spec. specialize (H3 _ _ Htp Hp). lia.
      + intros tp p q i k x y Htp Hm%to_merge_spec Hp Hq Hi Hk Hx Hy.
        eapply (H4 tp i k); try done; apply Hd; eauto.
      + intros a b a' b' tp tp' p p' i Ha Hb Ha' Hb' Hm%to_merge_spec Hm'%to_merge_spec Hs Hs'.
        apply selects_spec in Hs, Hs'. rewrite all_dests_todo in H5.
        (* positions in the flattened list *)
        clear H1 H2 H3 H4 Hd. revert a a' Ha Ha'. induction tps as [|tp0 l IH]; intros a a' Ha Ha'; [done|].
        rewrite bind_cons, omap_app in H5. apply NoDup_app in H5 as (N1 & N2 & N3).
        assert (∀ b p tp, left_out j tp = false → tp_posts tp !! b = Some p → lookup_posting j (tp_date tp) p = VMerge i →
          i ∈ omap (λ pv : posting_internal * verdict, match pv.2 with VMerge i => Some i | _ => None end) (todo_of j tp)) as Hin.
        { clear. intros b p tp El Hb E. apply elem_of_list_omap. exists (p, VMerge i). split; [|done].
          apply elem_of_todo. split_and!; [done| |done]. by eapply elem_of_list_lookup_2. }
        assert (∀ tp b p, tp ∈ l → left_out j tp = false → tp_posts tp !! b = Some p → lookup_posting j (tp_date tp) p = VMerge i →
          i ∈ omap (λ pv : posting_internal * verdict, match pv.2 with VMerge i => Some i | _ => None end) (l ≫= todo_of j)) as Hin'.
        { clear. intros tp b p Htp El Hb E. apply elem_of_list_omap. exists (p, VMerge i). split; [|done].
          apply elem_of_list_bind. exists tp. split; [|done]. apply elem_of_todo. split_and!; [done| |done]. by eapply elem_of_list_lookup_2. }
        destruct a as [|a], a' as [|a']; cbn [lookup list_lookup] in Ha, Ha'.
        * assert (tp' = tp) as -> by congruence. assert (tp0 = tp) as -> by congruence. split; [done|]. rename Hm into El. clear -N1 Hb Hb' Hs Hs' El.
          pose proof (todo_lookup j tp b p El Hb) as T1. pose proof (todo_lookup j tp b' p' El Hb') as T2.
          rewrite Hs in T1. rewrite Hs' in T2. clear Hb Hb' Hs Hs'. revert b b' T1 T2 N1. clear. generalize (todo_of j tp). intros l.
          induction l as [|[q v] l IH]; intros b b' T1 T2 N1; [done|].
          destruct b as [|b], b' as [|b']; simplify_eq/=; [done|..].
          -- csimpl in N1. apply NoDup_cons in N1 as [N1 _]. destruct N1. apply elem_of_list_omap.
             exists (p', VMerge i). split; [by eapply elem_of_list_lookup_2|done].
          -- csimpl in N1. apply NoDup_cons in N1 as [N1 _]. destruct N1. apply elem_of_list_omap.
             exists (p, VMerge i). split; [by eapply elem_of_list_lookup_2|done].
          -- f_equal. eapply IH; [done..|]. destruct v; csimpl in N1; try done. by apply NoDup_cons in N1 as [_ ?].
        * exfalso. assert (tp0 = tp) as -> by congruence.
          eapply (N2 i); [by eapply (Hin b p)|]. eapply (Hin' tp' b' p'); [by eapply elem_of_list_lookup_2|done..].
        * exfalso. assert (tp0 = tp') as -> by congruence.
          eapply (N2 i); [by eapply (Hin b' p')|]. eapply (Hin' tp b p); [by eapply elem_of_list_lookup_2|done..].
        * destruct (IH N3 a a') as [-> ->]; done.
    - intros [H1 H2 H3 H4 H5]. split; [done|done|..].
      + intros tp p Htp Hp. destruct (le_lt_dec (length (fp_hits j p)) 1) as [?|Hc]; [done|].
        exfalso. apply (H3 p); [apply elem_of_list_bind; eauto|]. apply conflicting_spec. lia.
      + intros tp i k x y Htp El Hi Hk Hx Hy. apply Hd in Hi as (p & Hp & Hi); [|done].
        apply Hd in Hk as (q & Hq & Hk); [|done]. apply (H4 tp p q i k x y); try done. by apply to_merge_spec.
      + unfold all_dests. apply NoDup_bind.
        * intros tp Htp. destruct (left_out j tp) eqn:El; [constructor|].
          apply elem_of_list_lookup in Htp as [a Ha].
          assert (∀ b b' p p' i, tp_posts tp !! b = Some p → tp_posts tp !! b' = Some p' →
            lookup_posting j (tp_date tp) p = VMerge i → lookup_posting j (tp_date tp) p' = VMerge i → b = b') as H.
          { intros b b' p p' i Hb Hb' E E'. apply selects_spec in E, E'.
            destruct (H5 a b a b' tp tp p p' i) as [_ ?]; try done; by apply to_merge_spec. }
          clear -H. unfold dests, verdicts. revert H. generalize (tp_posts tp). intros ps.
          induction ps as [|p ps IH]; intros H; csimpl; [constructor|].
          assert (∀ b b' p p' i, ps !! b = Some p → ps !! b' = Some p' →
            lookup_posting j (tp_date tp) p = VMerge i → lookup_posting j (tp_date tp) p' = VMerge i → b = b') as H'.
          { intros b b' q q' i Hb Hb' E E'. assert (S b = S b'); [|lia]. by eapply (H _ _ q q' i). }
          destruct (lookup_posting j (tp_date tp) p) as [i| | |] eqn:E; auto.
          apply NoDup_cons. split; [|auto]. intros (v & Hv & Ev)%elem_of_list_omap.
          apply elem_of_list_fmap in Hv as (q & -> & Hq). apply elem_of_list_lookup in Hq as [b Hb].
          destruct (lookup_posting j (tp_date tp) q) eqn:Eq; simplify_eq.
          assert (0 = S b); [|lia]. by eapply (H 0 (S b) p q i).
        * intros a a' tp tp' i Ha Ha' Hi Hi'. destruct (left_out j tp) eqn:El; [by apply elem_of_nil in Hi|].
          destruct (left_out j tp') eqn:El'; [by apply elem_of_nil in Hi'|].
          apply Hd in Hi as (p & Hp & Hi); [|by eapply elem_of_list_lookup_2].
          apply Hd in Hi' as (p' & Hp' & Hi'); [|by eapply elem_of_list_lookup_2].
          apply elem_of_list_lookup in Hp as [b Hb], Hp' as [b' Hb'].
          destruct (H5 a b a' b' tp tp' p p' i) as [? _]; try done; by apply to_merge_spec.
  Qed.
  Lemma merge_ok_iff ho tps : hash_order_ok ho →
    (∃ m' un, merge ho m tps = (m', Ok un)) ↔ acceptable j tps.
  Proof.
    intros Hho. rewrite <- valid_set_declarative. destruct (merge ho m tps) as [m' r] eqn:E.
    destruct (merge_cases ho m j tps m' _ Hho Hj Hwf E) as [(? & ? & ? & un & -> & ?)|(? & ? & e & ->)].
    - split; [done|]. eauto.
    - split; [|done]. intros (? & ? & ?). simplify_eq.
  Qed.
  Lemma merge_rejected ho tps : hash_order_ok ho → ¬ acceptable j tps → ∃ e, merge ho m tps = (m, Err e).
  Proof.
    intros Hho. rewrite <- valid_set_declarative. by apply merge_rejects.
  Qed.
End laws.

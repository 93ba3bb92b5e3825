(** Lemmas about the vocabulary of Base.v. *)
From Verif Require Import Base SpecBase.
From Coq Require Import Lia.
Open Scope N_scope.

Lemma default_order_ok : hash_order_ok default_order.
Proof. repeat split; intros; reflexivity. Qed.

Lemma rbind_ok {A B} (r : result A) (f : A → result B) b :
  rbind r f = Ok b ↔ ∃ a, r = Ok a ∧ f a = Ok b.
Proof. destruct r; simpl; naive_solver. Qed.

Lemma rmapM_ok {A B} (f : A → result B) l l' :
  rmapM f l = Ok l' ↔ Forall2 (λ x y, f x = Ok y) l l'.
Proof.
  revert l'; induction l as [|x l IH]; intros l'; simpl.
  - split; [intros [= <-]; constructor | intros H; inversion H; done].
  - rewrite rbind_ok. split.
    + intros (y & Hy & H). apply rbind_ok in H as (ys & Hys & [= <-]).
      constructor; [done|]. by apply IH.
    + intros H. inversion H as [|? y ? ys Hy Hys]; subst. exists y. split; [done|].
      apply rbind_ok. exists ys. split; [by apply IH|done].
Qed.

(** ** Dates *)
Lemma date_leb_refl d : date_leb d d = true.
Proof. destruct d as [[y m] d]. unfold date_leb.
  rewrite Z.ltb_irrefl, Z.eqb_refl, N.ltb_irrefl, N.eqb_refl, N.leb_refl. done. Qed.
Lemma date_leb_spec a b : date_leb a b = true ↔
  (a.1.1 < b.1.1)%Z ∨ (a.1.1 = b.1.1 ∧ (a.1.2 < b.1.2 ∨ (a.1.2 = b.1.2 ∧ a.2 <= b.2))).
Proof.
  destruct a as [[y m] d], b as [[y' m'] d']; unfold date_leb; simpl.
  rewrite orb_true_iff, andb_true_iff, orb_true_iff, andb_true_iff,
    Z.ltb_lt, Z.eqb_eq, N.ltb_lt, N.eqb_eq, N.leb_le. done.
Qed.
Lemma date_leb_total a b : date_leb a b = true ∨ date_leb b a = true.
Proof. rewrite !date_leb_spec. lia. Qed.
Lemma date_leb_trans a b c : date_leb a b = true → date_leb b c = true → date_leb a c = true.
Proof. rewrite !date_leb_spec. lia. Qed.
Lemma date_leb_antisym a b : date_leb a b = true → date_leb b a = true → a = b.
Proof.
  rewrite !date_leb_spec. intros. destruct a as [[y m] d], b as [[y' m'] d']; simpl in *.
  assert (y = y' ∧ m = m' ∧ d = d') as (->&->&->) by lia. done.
Qed.

(** ** String order *)
Lemma str_leb_refl a : str_leb a a = true.
Proof. induction a as [|x a IH]; simpl; [done|]. rewrite N.eqb_refl, IH, orb_true_r. done. Qed.
Lemma str_leb_total a b : str_leb a b = true ∨ str_leb b a = true.
Proof.
  revert b; induction a as [|x a IH]; intros [|y b]; simpl; auto.
  rewrite !orb_true_iff, !andb_true_iff, !N.ltb_lt, !N.eqb_eq.
  destruct (N.lt_trichotomy x y) as [?|[?|?]]; auto. destruct (IH b); auto.
Qed.
Lemma str_leb_trans a b c : str_leb a b = true → str_leb b c = true → str_leb a c = true.
Proof.
  revert b c; induction a as [|x a IH]; intros [|y b] [|z c]; simpl; try done.
  rewrite !orb_true_iff, !andb_true_iff, !N.ltb_lt, !N.eqb_eq.
  intros [H|[-> H]] [H'|[-> H']]; eauto; left; lia.
Qed.
Lemma str_leb_antisym a b : str_leb a b = true → str_leb b a = true → a = b.
Proof.
  revert b; induction a as [|x a IH]; intros [|y b]; simpl; try done.
  rewrite !orb_true_iff, !andb_true_iff, !N.ltb_lt, !N.eqb_eq.
  intros [H|[-> H]] [H'|[? H']]; try lia. f_equal. auto.
Qed.

(** ** Stable sort *)
Section sort.
  Context {A : Type} (leb : A → A → bool).
  Local Notation le := (λ a b, leb a b = true).
  Hypothesis leb_total : ∀ a b, leb a b = true ∨ leb b a = true.
  Hypothesis leb_trans : ∀ a b c, leb a b = true → leb b c = true → leb a c = true.

  Lemma sort_insert_perm x l : sort_insert leb x l ≡ₚ x :: l.
  Proof.
    induction l as [|y l IH]; simpl; [done|]. destruct (leb x y); [done|].
    rewrite IH. constructor.
  Qed.
  Lemma stable_sort_perm l : stable_sort leb l ≡ₚ l.
  Proof. induction l as [|x l IH]; simpl; [done|]. by rewrite sort_insert_perm, IH. Qed.

  Lemma sort_insert_sorted x l : StronglySorted le l → StronglySorted le (sort_insert leb x l).
  Proof using leb_total leb_trans.
    induction 1 as [|y l Hl IH Hy]; simpl; [repeat constructor|].
    destruct (leb x y) eqn:E.
    - constructor; [by constructor|]. constructor; [done|].
      eapply Forall_impl; [done|]. intros z Hz. eauto.
    - constructor; [done|]. rewrite sort_insert_perm. constructor; [|done].
      destruct (leb_total x y); congruence.
  Qed.
  Lemma stable_sort_sorted l : StronglySorted le (stable_sort leb l).
  Proof using leb_total leb_trans.
    induction l; simpl; [constructor|]. by apply sort_insert_sorted. Qed.

  Lemma sort_insert_head x l : Forall (λ y, leb x y = true) l → sort_insert leb x l = x :: l.
  Proof. destruct l as [|y l]; simpl; [done|]. inversion 1; subst. by destruct (leb x y). Qed.
  Lemma stable_sort_id l : StronglySorted le l → stable_sort leb l = l.
  Proof. induction 1 as [|x l Hl IH Hx]; simpl; [done|]. rewrite IH. by apply sort_insert_head. Qed.
  Lemma stable_sort_idemp l : stable_sort leb (stable_sort leb l) = stable_sort leb l.
  Proof using leb_total leb_trans. apply stable_sort_id, stable_sort_sorted. Qed.

  Lemma sort_insert_filter_no (P : A → Prop) `{∀ x, Decision (P x)} x l :
    ¬ P x → filter P (sort_insert leb x l) = filter P l.
  Proof.
    intros Hx. induction l as [|y l IH]; simpl.
    - by rewrite filter_cons_False.
    - destruct (leb x y); [by rewrite filter_cons_False|].
      destruct (decide (P y)); [rewrite !filter_cons_True by done|rewrite !filter_cons_False by done];
        by rewrite IH.
  Qed.
  (** Elements below a class of mutually equivalent elements are inserted in
      front of the class. *)
  Lemma sort_insert_filter_yes (P : A → Prop) `{∀ x, Decision (P x)} x l :
    P x → (∀ a b, P a → P b → leb a b = true) →
    filter P (sort_insert leb x l) = x :: filter P l.
  Proof.
    intros Hx HP. induction l as [|y l IH]; simpl.
    - by rewrite filter_cons_True.
    - destruct (leb x y) eqn:E; [by rewrite filter_cons_True|].
      destruct (decide (P y)) as [Hy|Hy].
      + rewrite (HP x y Hx Hy) in E. done.
      + rewrite !filter_cons_False by done. done.
  Qed.
  Lemma stable_sort_filter (P : A → Prop) `{∀ x, Decision (P x)} l :
    (∀ a b, P a → P b → leb a b = true) → filter P (stable_sort leb l) = filter P l.
  Proof.
    intros HP. induction l as [|x l IH]; [done|]. simpl stable_sort.
    destruct (decide (P x)).
    - rewrite sort_insert_filter_yes by done. rewrite filter_cons_True by done. by rewrite IH.
    - rewrite sort_insert_filter_no by done. rewrite filter_cons_False by done. done.
  Qed.
End sort.

(** Permuted inputs sort to the same list if the order is antisymmetric. *)
Lemma sorted_perm_unique {A} (leb : A → A → bool) l1 l2 :
  (∀ a b, leb a b = true → leb b a = true → a = b) →
  StronglySorted (λ a b, leb a b = true) l1 → StronglySorted (λ a b, leb a b = true) l2 →
  l1 ≡ₚ l2 → l1 = l2.
Proof.
  intros Hanti. revert l2. induction l1 as [|x l1 IH]; intros l2 H1 H2 Hp.
  - by apply Permutation_nil_l in Hp.
  - destruct l2 as [|y l2]; [by apply Permutation_nil_r in Hp|].
    apply StronglySorted_inv in H1 as [H1 Hx]. apply StronglySorted_inv in H2 as [H2 Hy].
    assert (x = y) as ->.
    { assert (x ∈ y :: l2) as Hin by (rewrite <- Hp; left).
      assert (y ∈ x :: l1) as Hin' by (rewrite Hp; left).
      rewrite Forall_forall in Hx, Hy. set_unfold.
      destruct Hin as [|Hin]; [done|]. destruct Hin' as [|Hin']; [done|]. auto. }
    f_equal. apply IH; try done. by apply Permutation_cons_inv in Hp.
Qed.
Lemma stable_sort_perm_eq {A} (leb : A → A → bool) l1 l2 :
  (∀ a b, leb a b = true ∨ leb b a = true) →
  (∀ a b c, leb a b = true → leb b c = true → leb a c = true) →
  (∀ a b, leb a b = true → leb b a = true → a = b) →
  l1 ≡ₚ l2 → stable_sort leb l1 = stable_sort leb l2.
Proof.
  intros Ht Htr Ha Hp. apply (sorted_perm_unique leb); auto using stable_sort_sorted.
  by rewrite !stable_sort_perm.
Qed.

(** A sorted list with the same elements in each class, in the same order, is
    the stable sort. *)
Lemma sorted_classes_unique {A} (key : A → date) l1 l2 :
  StronglySorted (λ a b, date_leb (key a) (key b) = true) l1 →
  StronglySorted (λ a b, date_leb (key a) (key b) = true) l2 →
  (∀ d, filter (λ a, key a = d) l1 = filter (λ a, key a = d) l2) → l1 = l2.
Proof.
  revert l2. induction l1 as [|x l1 IH]; intros l2 H1 H2 Hf.
  - destruct l2 as [|y l2]; [done|]. specialize (Hf (key y)).
    rewrite filter_nil, filter_cons_True in Hf by done. done.
  - destruct l2 as [|y l2].
    { specialize (Hf (key x)). rewrite filter_nil, filter_cons_True in Hf by done. done. }
    apply StronglySorted_inv in H1 as [H1 Hx]. apply StronglySorted_inv in H2 as [H2 Hy].
    assert (date_leb (key x) (key y) = true) as L1.
    { assert (y ∈ filter (λ a, key a = key y) (x :: l1)) as Hin.
      { rewrite Hf. apply elem_of_list_filter. split; [done|left]. }
      apply elem_of_list_filter in Hin as [_ Hin]. apply elem_of_cons in Hin as [->|Hin].
      - apply date_leb_refl.
      - rewrite Forall_forall in Hx. auto. }
    assert (date_leb (key y) (key x) = true) as L2.
    { assert (x ∈ filter (λ a, key a = key x) (y :: l2)) as Hin.
      { rewrite <- Hf. apply elem_of_list_filter. split; [done|left]. }
      apply elem_of_list_filter in Hin as [_ Hin]. apply elem_of_cons in Hin as [->|Hin].
      - apply date_leb_refl.
      - rewrite Forall_forall in Hy. auto. }
    assert (key x = key y) as Hk by (by apply date_leb_antisym).
    assert (x = y) as ->.
    { specialize (Hf (key x)). rewrite !filter_cons_True in Hf by done. naive_solver. }
    f_equal. apply IH; [done..|]. intros d. specialize (Hf d).
    destruct (decide (key y = d)).
    + rewrite !filter_cons_True in Hf by done. naive_solver.
    + by rewrite !filter_cons_False in Hf by done.
Qed.

Lemma by_key_total {A} (key : A → date) a b : by_key key a b = true ∨ by_key key b a = true.
Proof. apply date_leb_total. Qed.
Lemma by_key_trans {A} (key : A → date) a b c :
  by_key key a b = true → by_key key b c = true → by_key key a c = true.
Proof. apply date_leb_trans. Qed.

Lemma stable_sort_unique {A} (key : A → date) l1 l2 :
  StronglySorted (λ a b, date_leb (key a) (key b) = true) l1 →
  (∀ d, filter (λ a, key a = d) l1 = filter (λ a, key a = d) l2) →
  l1 = stable_sort (by_key key) l2.
Proof.
  intros H1 Hf. apply (sorted_classes_unique key); [done| |].
  - apply (stable_sort_sorted (by_key key)); [apply by_key_total|apply by_key_trans].
  - intros d. rewrite Hf. symmetry. apply stable_sort_filter.
    intros a b <- E. unfold by_key. rewrite E. apply date_leb_refl.
Qed.

(** ** Positions of the elements satisfying a test *)

Lemma elem_of_positions {A} (f : A → bool) l i :
  i ∈ positions f l ↔ ∃ x, l !! i = Some x ∧ f x = true.
Proof.
  revert i; induction l as [|x l IH]; intros i; simpl.
  - split; [by intros ?%elem_of_nil|intros (?&?&_); done].
  - rewrite elem_of_app, elem_of_list_fmap. split.
    + intros [H|(j & -> & H)].
      * destruct (f x) eqn:E; [|by apply elem_of_nil in H].
        apply elem_of_list_singleton in H as ->. eauto.
      * apply IH in H. done.
    + intros (y & Hy & Hf). destruct i as [|i]; simpl in Hy.
      * simplify_eq. left. rewrite Hf. left.
      * right. exists i. split; [done|]. apply IH; eauto.
Qed.
Lemma positions_lt {A} (f : A → bool) l i : i ∈ positions f l → (i < length l)%nat.
Proof. intros (x & Hx & _)%elem_of_positions. by apply lookup_lt_Some in Hx. Qed.
Lemma NoDup_positions {A} (f : A → bool) l : NoDup (positions f l).
Proof.
  induction l as [|x l IH]; simpl; [constructor|].
  apply NoDup_app. split_and!.
  - destruct (f x); repeat constructor. by intros ?%elem_of_nil.
  - intros i Hi. destruct (f x); [|by apply elem_of_nil in Hi].
    apply elem_of_list_singleton in Hi as ->. by intros (? & ? & _)%elem_of_list_fmap.
  - apply NoDup_fmap; [apply _|done].
Qed.
Lemma positions_app {A} (f : A → bool) l k :
  positions f (l ++ k) = positions f l ++ (Nat.add (length l) <$> positions f k).
Proof.
  induction l as [|x l IH]; simpl.
  - rewrite <- (list_fmap_id (positions f k)) at 1. apply list_fmap_ext. intros; done.
  - rewrite IH, fmap_app, <- list_fmap_compose, app_assoc. f_equal.
Qed.
Lemma positions_snoc {A} (f : A → bool) l x :
  positions f (l ++ [x]) = positions f l ++ (if f x then [length l] else []).
Proof. rewrite positions_app. simpl. destruct (f x); simpl; [|done]. by rewrite Nat.add_0_r. Qed.
Lemma positions_insert {A} (f : A → bool) l i x y :
  l !! i = Some y → f x = f y → positions f (<[i := x]> l) = positions f l.
Proof.
  revert i; induction l as [|z l IH]; intros i Hi Hf; [done|].
  destruct i as [|i]; simpl in *; simplify_eq; [by rewrite Hf|]. by rewrite IH.
Qed.
Lemma positions_ext {A} (f g : A → bool) l :
  (∀ x, x ∈ l → f x = g x) → positions f l = positions g l.
Proof.
  induction l as [|x l IH]; intros H; simpl; [done|].
  rewrite (H x) by left. rewrite IH; [done|]. intros y Hy. apply H. by right.
Qed.
Lemma positions_fmap {A B} (f : B → bool) (g : A → B) l :
  positions f (g <$> l) = positions (λ x, f (g x)) l.
Proof. induction l as [|x l IH]; csimpl; [done|]. by rewrite IH. Qed.
Lemma positions_nil {A} (f : A → bool) l : positions f l = [] ↔ ∀ x, x ∈ l → f x = false.
Proof.
  split.
  - intros H x [i Hi]%elem_of_list_lookup. destruct (f x) eqn:E; [|done].
    assert (i ∈ positions f l) as Hin by (apply elem_of_positions; eauto).
    rewrite H in Hin. by apply elem_of_nil in Hin.
  - intros H. destruct (positions f l) as [|i k] eqn:E; [done|].
    assert (i ∈ positions f l) as (x & Hx & Hf)%elem_of_positions by (rewrite E; left).
    rewrite (H x) in Hf; [done|]. by eapply elem_of_list_lookup_2.
Qed.
Lemma omap_fmap' {A B C} (f : B → option C) (g : A → B) (l : list A) :
  omap f (g <$> l) = omap (λ x, f (g x)) l.
Proof. induction l as [|x l IH]; csimpl; [done|]. by rewrite IH. Qed.
Lemma omap_positions {A} (f : A → bool) l :
  omap (λ i, l !! i) (positions f l) = filter (λ x, is_true (f x)) l.
Proof.
  induction l as [|x l IH]; simpl; [done|].
  rewrite omap_app. rewrite omap_fmap'. simpl.
  change (omap (λ x0, (x :: l) !! S x0) (positions f l)) with (omap (λ i, l !! i) (positions f l)).
  rewrite IH. destruct (f x) eqn:E; simpl.
  - rewrite filter_cons_True; [done|]. by rewrite E.
  - rewrite filter_cons_False; [done|]. by rewrite E.
Qed.
Lemma filter_fmap' {A B} (P : B → Prop) `{∀ x, Decision (P x)} (g : A → B) (l : list A) :
  filter P (g <$> l) = g <$> filter (λ x, P (g x)) l.
Proof.
  induction l as [|x l IH]; csimpl; [done|].
  destruct (decide (P (g x))).
  - rewrite !filter_cons_True by done. csimpl. by rewrite IH.
  - by rewrite !filter_cons_False by done.
Qed.
Lemma positions_filter {A} (f g : A → bool) l :
  filter (λ i, is_true (match l !! i with Some x => g x | None => false end)) (positions f l)
  = positions (λ x, f x && g x) l.
Proof.
  induction l as [|x l IH]; simpl; [done|].
  rewrite filter_app. f_equal.
  - destruct (f x); simpl; [|done]. destruct (g x) eqn:E.
    + rewrite filter_cons_True; [done|]. simpl. by rewrite E.
    + rewrite filter_cons_False; [done|]. simpl. by rewrite E.
  - rewrite filter_fmap'. f_equal. apply IH.
Qed.

Lemma lookup_snoc_Some {A} (l : list A) x i y :
  (l ++ [x]) !! i = Some y ↔ (i < length l)%nat ∧ l !! i = Some y ∨ i = length l ∧ x = y.
Proof.
  rewrite lookup_app_Some. split.
  - intros [H|[H1 H2]].
    + left. split; [by eapply lookup_lt_Some|done].
    + right. destruct (i - length l)%nat eqn:E; simpl in H2; [|done]. simplify_eq. split; [lia|done].
  - intros [[_ H]|[-> ->]]; [by left|right]. split; [lia|]. by rewrite Nat.sub_diag.
Qed.

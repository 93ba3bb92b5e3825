(** Lemmas about the string functions of Base.v. *)
From Verif Require Import Base BaseProofs.
From Coq Require Import Lia.
Local Open Scope nat_scope.

Lemma take_drop_while {A} (f : A → bool) l : take_while f l ++ drop_while f l = l.
Proof. induction l as [|x l IH]; simpl; [done|]. destruct (f x); simpl; congruence. Qed.
Lemma take_while_all {A} (f : A → bool) l : Forall (λ x, f x = true) (take_while f l).
Proof. induction l as [|x l IH]; simpl; [constructor|]. destruct (f x) eqn:E; by constructor. Qed.
Lemma drop_while_head {A} (f : A → bool) l x l' : drop_while f l = x :: l' → f x = false.
Proof.
  induction l as [|y l IH]; simpl; [done|]. destruct (f y) eqn:E; [done|]. intros [= -> ->]. done.
Qed.
Lemma drop_while_length {A} (f : A → bool) l : length (drop_while f l) ≤ length l.
Proof. induction l as [|y l IH]; simpl; [done|]. destruct (f y); simpl; lia. Qed.
Lemma drop_while_id {A} (f : A → bool) x l : f x = false → drop_while f (x :: l) = x :: l.
Proof. simpl. by intros ->. Qed.
Lemma drop_while_all {A} (f : A → bool) l : Forall (λ x, f x = true) l → drop_while f l = [].
Proof. induction 1 as [|x l Hx H IH]; simpl; [done|]. by rewrite Hx. Qed.
Lemma drop_while_nil {A} (f : A → bool) l : drop_while f l = [] → Forall (λ x, f x = true) l.
Proof. induction l as [|x l IH]; simpl; [constructor|]. destruct (f x) eqn:E; [|done]. constructor; auto. Qed.
Lemma drop_while_app {A} (f : A → bool) l k : Forall (λ x, f x = true) l → drop_while f (l ++ k) = drop_while f k.
Proof. induction 1 as [|x l Hx H IH]; simpl; [done|]. by rewrite Hx. Qed.
Lemma take_while_app {A} (f : A → bool) l x k :
  Forall (λ x, f x = true) l → f x = false → take_while f (l ++ x :: k) = l ∧ drop_while f (l ++ x :: k) = x :: k.
Proof.
  intros H Hx. induction H as [|y l Hy H [IH1 IH2]]; simpl.
  - by rewrite Hx.
  - rewrite Hy. by rewrite IH1, IH2.
Qed.
Lemma take_while_full {A} (f : A → bool) l : Forall (λ x, f x = true) l → take_while f l = l.
Proof. induction 1 as [|y l Hy H IH]; simpl; [done|]. by rewrite Hy, IH. Qed.

(** ** Trimming *)
Lemma drop_while_end_app {A} (f : A → bool) l k :
  Forall (λ x, f x = true) k → drop_while_end f (l ++ k) = drop_while_end f l.
Proof.
  intros H. unfold drop_while_end. rewrite reverse_app, drop_while_app; [done|].
  by apply Forall_reverse.
Qed.
Lemma drop_while_end_id {A} (f : A → bool) l x : f x = false → drop_while_end f (l ++ [x]) = l ++ [x].
Proof.
  intros H. unfold drop_while_end. rewrite reverse_app. simpl. rewrite H. simpl.
  rewrite reverse_cons, reverse_involutive. done.
Qed.
Lemma drop_while_end_split {A} (f : A → bool) l : ∃ k, l = drop_while_end f l ++ k ∧ Forall (λ x, f x = true) k.
Proof.
  exists (reverse (take_while f (reverse l))). split.
  - unfold drop_while_end. rewrite <- reverse_app, take_drop_while. by rewrite reverse_involutive.
  - apply Forall_reverse, take_while_all.
Qed.
Lemma drop_while_end_cases {A} (f : A → bool) l :
  drop_while_end f l = [] ∨ ∃ l' x, drop_while_end f l = l' ++ [x] ∧ f x = false.
Proof.
  unfold drop_while_end. destruct (drop_while f (reverse l)) as [|x k] eqn:E; [by left|right].
  exists (reverse k), x. split; [by rewrite reverse_cons|]. by eapply drop_while_head.
Qed.
Lemma trim_split s : ∃ a b, s = a ++ trim s ++ b ∧ Forall (λ c, is_ws c = true) a ∧ Forall (λ c, is_ws c = true) b.
Proof.
  destruct (drop_while_end_split is_ws (drop_while is_ws s)) as (b & E & Hb).
  exists (take_while is_ws s), b. split_and!; [|apply take_while_all|done].
  unfold trim. rewrite <- E. by rewrite take_drop_while.
Qed.
(** A string that starts and ends with a non-blank. *)
Definition bare (s : str) : Prop :=
  s ≠ [] ∧ (∀ c s', s = c :: s' → is_ws c = false) ∧ (∀ c s', s = s' ++ [c] → is_ws c = false).
Lemma trim_bare s : bare s → trim s = s.
Proof.
  intros (Hne & H1 & H2). destruct s as [|c s]; [done|].
  unfold trim. rewrite drop_while_id by by eapply H1.
  destruct (exists_last Hne) as (s' & x & E). rewrite E. apply drop_while_end_id. by eapply H2.
Qed.
Lemma trim_is_bare s : trim s = [] ∨ bare (trim s).
Proof.
  unfold trim. destruct (drop_while_end_cases is_ws (drop_while is_ws s)) as [?|(l' & x & E & Hx)]; [by left|right].
  rewrite E. split_and!; [by destruct l'| |].
  - intros c s' Ec. destruct (drop_while_end_split is_ws (drop_while is_ws s)) as (k & E' & _).
    rewrite E, Ec in E'. simpl in E'. by eapply drop_while_head.
  - intros c s' Ec. apply app_inj_tail in Ec as [_ <-]. done.
Qed.
Lemma trim_trim s : trim (trim s) = trim s.
Proof. destruct (trim_is_bare s) as [->|H]; [done|]. by apply trim_bare. Qed.
Lemma trim_bare_iff s : s ≠ [] → trim s = s ↔ bare s.
Proof.
  intros Hne. split; [|apply trim_bare]. intros E. rewrite <- E. destruct (trim_is_bare s) as [E'|?]; [congruence|done].
Qed.
Lemma trim_nil_iff s : trim s = [] ↔ Forall (λ c, is_ws c = true) s.
Proof.
  split.
  - intros E. destruct (trim_split s) as (a & b & Es & Ha & Hb). rewrite E in Es. rewrite Es.
    by apply Forall_app_2.
  - intros H. unfold trim. rewrite drop_while_all by done. done.
Qed.
Lemma trim_cons_ws c s : is_ws c = true → trim (c :: s) = trim s.
Proof. intros H. unfold trim. simpl. by rewrite H. Qed.
Lemma trim_sub s c : c ∈ trim s → c ∈ s.
Proof.
  intros Hc. destruct (trim_split s) as (a & b & E & _). rewrite E. rewrite !elem_of_app. auto.
Qed.

(** ** Splitting and joining *)
Lemma split_on_nonempty c s : split_on c s ≠ [].
Proof. destruct s as [|x s]; simpl; [done|]. destruct (x =? c)%N; [done|]. by destruct (split_on c s). Qed.
Lemma split_on_no c s : c ∉ s → split_on c s = [s].
Proof.
  induction s as [|x s IH]; intros H; simpl; [done|]. rewrite not_elem_of_cons in H. destruct H as [Hx H].
  destruct (N.eqb_spec x c) as [->|_]; [done|]. by rewrite IH.
Qed.
Lemma split_on_app c s t : c ∉ s → split_on c (s ++ c :: t) = s :: split_on c t.
Proof.
  induction s as [|x s IH]; intros H; simpl.
  - by rewrite N.eqb_refl.
  - rewrite not_elem_of_cons in H. destruct H as [Hx H].
    destruct (N.eqb_spec x c) as [->|_]; [done|]. by rewrite IH.
Qed.
Lemma split_join c l : l ≠ [] → Forall (λ s, c ∉ s) l → split_on c (join [c] l) = l.
Proof.
  intros Hne H. induction H as [|s l Hs H IH]; [done|]. destruct l as [|s' l].
  - simpl. by apply split_on_no.
  - change (join [c] (s :: s' :: l)) with (s ++ c :: join [c] (s' :: l)). rewrite split_on_app by done.
    by rewrite IH.
Qed.
Lemma split_on_elem c s p : p ∈ split_on c s → c ∉ p.
Proof.
  revert p. induction s as [|x s IH]; intros p; simpl.
  - intros ->%elem_of_list_singleton. by intros ?%elem_of_nil.
  - destruct (N.eqb_spec x c) as [->|Hx].
    + intros [->|H]%elem_of_cons; [by intros ?%elem_of_nil|auto].
    + destruct (split_on c s) as [|q ps] eqn:E.
      * intros ->%elem_of_list_singleton. intros ->%elem_of_list_singleton. done.
      * intros [->|H]%elem_of_cons.
        -- intros [->|H]%elem_of_cons; [done|]. eapply IH; [left|done].
        -- apply IH. by right.
Qed.
Lemma join_split c s : join [c] (split_on c s) = s.
Proof.
  induction s as [|x s IH]; simpl; [done|]. destruct (N.eqb_spec x c) as [->|Hx].
  - pose proof (split_on_nonempty c s). destruct (split_on c s) as [|q ps] eqn:E; [done|].
    change (join [c] ([] :: q :: ps)) with (c :: join [c] (q :: ps)). by rewrite IH.
  - pose proof (split_on_nonempty c s). destruct (split_on c s) as [|q ps] eqn:E; [done|].
    destruct ps as [|p ps]; simpl in *; by rewrite IH.
Qed.
Lemma split_on_sub c s p x : p ∈ split_on c s → x ∈ p → x ∈ s.
Proof.
  revert p. induction s as [|y s IH]; intros p; simpl.
  - intros ->%elem_of_list_singleton. done.
  - destruct (N.eqb_spec y c) as [->|Hy].
    + intros [->|H]%elem_of_cons Hx; [by apply elem_of_nil in Hx|]. right. eauto.
    + destruct (split_on c s) as [|q ps] eqn:E.
      * intros ->%elem_of_list_singleton ->%elem_of_list_singleton. left.
      * intros [->|H]%elem_of_cons Hx.
        -- apply elem_of_cons in Hx as [->|Hx]; [left|]. right. eapply IH; [left|done].
        -- right. eapply IH; [right; done|done].
Qed.
Lemma join_cons c q l : l ≠ [] → join [c] (q :: l) = q ++ c :: join [c] l.
Proof. destruct l; [done|]. done. Qed.

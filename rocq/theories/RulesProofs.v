(** Proofs about the rules: predicates, and what applying a chain means. *)
From stdpp Require Import gmap list relations.
From Verif Require Import Base Types CommentModel MergeModel CmdModel SpecBase BaseProofs MergeProofs CmdClaims RulesModel RulesClaims.
Local Open Scope nat_scope.

(** * Induction principles *)

Section predicate_rect.
  Variable P : predicate → Prop.
  Hypothesis Hall : ∀ l, Forall P l → P (PAll l).
  Hypothesis Hany : ∀ l, Forall P l → P (PAny l).
  Hypothesis Hacc : ∀ m, P (PAccount m).
  Hypothesis Hflag : ∀ m, P (PFlagTag m).
  Hypothesis Hhf : ∀ t, P (PHasFlagTag t).
  Hypothesis Hhv : ∀ k, P (PHasValueTag k).
  Hypothesis Hv : ∀ k m, P (PValueTag k m).
  Hypothesis Hnot : ∀ p, P p → P (PNot p).
  Hypothesis Hdesc : ∀ m, P (PDescription m).
  Hypothesis Htrue : P PTrue.
  Fixpoint predicate_nest (p : predicate) : P p :=
    match p with
    | PAll l => Hall l ((fix go l := match l return Forall P l with
                         | [] => Forall_nil_2 _ | p :: l => Forall_cons_2 _ _ _ (predicate_nest p) (go l) end) l)
    | PAny l => Hany l ((fix go l := match l return Forall P l with
                         | [] => Forall_nil_2 _ | p :: l => Forall_cons_2 _ _ _ (predicate_nest p) (go l) end) l)
    | PAccount m => Hacc m | PFlagTag m => Hflag m | PHasFlagTag t => Hhf t | PHasValueTag k => Hhv k
    | PValueTag k m => Hv k m | PNot p => Hnot p (predicate_nest p) | PDescription m => Hdesc m | PTrue => Htrue
    end.
End predicate_rect.

Section action_rect.
  Variable P : action → Prop.
  Hypothesis Hall : ∀ l, Forall P l → P (AAll l).
  Hypothesis Hrest : ∀ a, (∀ l, a ≠ AAll l) → P a.
  Fixpoint action_nest (a : action) : P a.
  Proof.
    destruct a; try (apply Hrest; discriminate).
    apply Hall. exact ((fix go l := match l return Forall P l with
                         | [] => Forall_nil_2 _ | p :: l => Forall_cons_2 _ _ _ (action_nest p) (go l) end) l).
  Defined.
End action_rect.

(** * Predicates *)

Lemma contains_spec (w s : str) : contains w s = true ↔ ∃ x y, s = x ++ w ++ y.
Proof.
  induction s as [|c s IH]; cbn [contains].
  - rewrite orb_false_r. rewrite starts_with_spec. split.
    + intros [t ->]. by exists [], t.
    + intros (x & y & H). destruct x, w; simplify_eq/=. by exists [].
  - rewrite orb_true_iff, IH, starts_with_spec. split.
    + intros [[t ->]|(x & y & ->)]; [by exists [], t|by exists (c :: x), y].
    + intros ([|c' x] & y & H); [left; by exists y|]. right. simplify_eq/=. by exists x, y.
Qed.

Lemma string_match_spec X m s : matches_string X m s = true ↔ string_ok X m s.
Proof.
  revert s. induction m as [m IH|w|w|r]; intros s; cbn [matches_string string_ok].
  - apply IH.
  - apply contains_spec.
  - unfold str_eqb. rewrite bool_decide_eq_true. naive_solver.
  - done.
Qed.

Lemma is_match_spec X ho c p : hash_order_ok ho →
  (is_match X ho p c = true → holds_for X c p) ∧ (is_match X ho p c = false → fails_for X c p).
Proof.
  intros [Hho _]. induction p as [l IH|l IH|m|m|t|k|k m|p IH|m|] using predicate_nest; cbn [is_match].
  - split.
    + intros H. constructor. intros p Hp. rewrite Forall_forall in IH. apply IH; [done|].
      apply elem_of_list_In in Hp. apply (proj1 (forallb_forall _ _) H p Hp).
    + induction IH as [|p l Hp _ IHl]; cbn [forallb]; [done|]. intros [H|H]%andb_false_iff.
      * apply (ff_all _ _ _ p); [by left|]. by apply Hp.
      * specialize (IHl H). inversion IHl; subst. eapply ff_all; [|done]. by right.
  - split.
    + intros H. apply existsb_exists in H as (p & Hp & H). apply elem_of_list_In in Hp.
      rewrite Forall_forall in IH. apply (hf_any _ _ _ p); [done|]. by apply IH.
    + intros H. constructor. intros p Hp. rewrite Forall_forall in IH. apply IH; [done|].
      apply not_true_is_false. intros Ht. assert (existsb (λ p, is_match X ho p c) l = true); [|congruence].
      apply existsb_exists. exists p. split; [by apply elem_of_list_In|done].
  - split; intros H; constructor; [by apply string_match_spec|]. rewrite <- string_match_spec. congruence.
  - split.
    + intros (t & Ht & H)%existsb_exists. apply elem_of_list_In in Ht. rewrite Hho, elem_of_elements in Ht.
      apply (hf_flag _ _ _ t); [done|]. by apply string_match_spec.
    + intros H. constructor. intros t Ht. rewrite <- string_match_spec. intros Hm.
      assert (existsb (matches_string X m) (ho_set ho (tags (pi_comment (rc_post c)))) = true); [|congruence].
      apply existsb_exists. exists t. split; [|done]. apply elem_of_list_In. rewrite Hho, elem_of_elements. exact Ht.
  - split; intros H; constructor; [by apply bool_decide_eq_true in H|by apply bool_decide_eq_false in H].
  - destruct (value_tags (pi_comment (rc_post c)) !! k) as [v|] eqn:E; split; intros H.
    + by apply (hf_has_value _ _ _ v).
    + apply bool_decide_eq_false in H. destruct H. by exists v.
    + apply bool_decide_eq_true in H. by destruct H.
    + by constructor.
  - destruct (value_tags (pi_comment (rc_post c)) !! k) as [v|] eqn:E; split; intros H.
    + apply (hf_value _ _ _ _ v); [done|]. by apply string_match_spec.
    + constructor. intros v' Hv'. rewrite <- string_match_spec. congruence.
    + done.
    + constructor. congruence.
  - destruct IH as [IH1 IH2]. split; intros H; constructor.
    + apply IH2. by apply negb_true_iff.
    + apply IH1. by apply negb_false_iff.
  - split; intros H; constructor; [by apply string_match_spec|]. rewrite <- string_match_spec. congruence.
  - split; [constructor|done].
Qed.
Lemma holds_fails X c p : holds_for X c p → fails_for X c p → False.
Proof.
  induction p as [l IH|l IH|m|m|t|k|k m|p IH|m|] using predicate_nest; intros H1 H2; inversion H1; subst; inversion H2; subst;
    try rewrite Forall_forall in IH; unfold not in *; first [congruence|by eauto].
Qed.
Lemma is_match_holds X ho c p : hash_order_ok ho → is_match X ho p c = true ↔ holds_for X c p.
Proof.
  intros Hho. destruct (is_match_spec X ho c p Hho) as [H1 H2]. split; [done|]. intros H.
  destruct (is_match X ho p c); [done|]. destruct (holds_fails X c p); auto.
Qed.
Lemma is_match_fails X ho c p : hash_order_ok ho → is_match X ho p c = false ↔ fails_for X c p.
Proof.
  intros Hho. destruct (is_match_spec X ho c p Hho) as [H1 H2]. split; [done|]. intros H.
  destruct (is_match X ho p c); [|done]. destruct (holds_fails X c p); auto.
Qed.
Lemma holds_not X c p : fails_for X c p ↔ ¬ holds_for X c p.
Proof.
  rewrite <- (is_match_holds X default_order c p default_order_ok), <- (is_match_fails X default_order c p default_order_ok).
  by destruct (is_match X default_order p c).
Qed.

(** * Single edits *)

Definition do_edit (X : text_env) (a : action) (c : rctx) : option rctx :=
  match a with
  | AAddPostFlag t => Some (on_post_comment (set_tags (λ s, {[t]} ∪ s)) c)
  | AAddPostValue k v => Some (on_post_comment (set_value_tags (<[k := v]>)) c)
  | AAddTrnFlag t => Some (on_trn_comment (set_tags (λ s, {[t]} ∪ s)) c)
  | AAddTrnValue k v => Some (on_trn_comment (set_value_tags (<[k := v]>)) c)
  | ANoop => Some c
  | ASetAccount v => Some (on_account v c)
  | ARemovePostFlag t => Some (on_post_comment (set_tags (λ s, s ∖ {[t]})) c)
  | ARemovePostValue k => Some (on_post_comment (set_value_tags (delete k)) c)
  | ARemoveTrnFlag t => Some (on_trn_comment (set_tags (λ s, s ∖ {[t]})) c)
  | ARemoveTrnValue k => Some (on_trn_comment (set_value_tags (delete k)) c)
  | AReplaceDescription r s => Some (on_description (rx_replace X r s) c)
  | AAll _ | AError _ | AJump _ => None
  end.

Lemma flag_added_eq t ts ts' : flag_added t ts ts' ↔ ts' = {[t]} ∪ ts.
Proof. unfold flag_added. split; [intros H; apply set_eq; set_solver|intros ->; set_solver]. Qed.
Lemma flag_removed_eq t ts ts' : flag_removed t ts ts' ↔ ts' = ts ∖ {[t]}.
Proof. unfold flag_removed. split; [intros H; apply set_eq; set_solver|intros ->; set_solver]. Qed.
Lemma value_set_some k v vs vs' : value_set k (Some v) vs vs' ↔ vs' = <[k := v]> vs.
Proof.
  unfold value_set. split.
  - intros [H1 H2]. apply map_eq. intros x. destruct (decide (x = k)) as [->|Hx].
    + by rewrite lookup_insert.
    + by rewrite lookup_insert_ne, H2.
  - intros ->. rewrite lookup_insert. split; [done|]. intros x Hx. by rewrite lookup_insert_ne.
Qed.
Lemma value_set_none k vs vs' : value_set k None vs vs' ↔ vs' = delete k vs.
Proof.
  unfold value_set. split.
  - intros [H1 H2]. apply map_eq. intros x. destruct (decide (x = k)) as [->|Hx].
    + by rewrite lookup_delete.
    + by rewrite lookup_delete_ne, H2.
  - intros ->. rewrite lookup_delete. split; [done|]. intros x Hx. by rewrite lookup_delete_ne.
Qed.
Lemma edits_spec X a c c' : edits X a c c' ↔ do_edit X a c = Some c'.
Proof.
  destruct c as [[tr tc] [pr pc]], c' as [[tr' tc'] [pr' pc']].
  destruct a; unfold edits, retagged, trn_retagged; cbn [do_edit rc_post rc_trn pi_raw pi_comment ti_raw ti_comment];
    unfold on_post_comment, on_trn_comment, on_account, on_description, set_tags, set_value_tags; cbn [rc_post rc_trn pi_raw pi_comment ti_raw ti_comment];
    try (split; [|intros ?; simplify_eq]; [intros [H1 (x & H2 & H3)]|split; [done|eexists; split; [|done]]];
      rewrite ?flag_added_eq, ?flag_removed_eq, ?value_set_some, ?value_set_none in *; simplify_eq; done).
  - done.
  - done.
  - split; [intros H; by rewrite H|intros H; by simplify_eq].
  - done.
  - destruct pr, pr'; cbn. split; [intros (H1 & H2 & H3 & H4); unfold set_account in *; cbn in *; by simplify_eq|].
    unfold set_account. cbn. intros H. by simplify_eq.
  - destruct tr, tr'; cbn. split; [intros (H1 & H2 & H3 & H4); unfold set_description in *; cbn in *; simplify_eq; by inversion H4|].
    unfold set_description. cbn. intros H. by simplify_eq.
Qed.

(** * The evaluator *)

Fixpoint apply_list (X : text_env) (jump : str → rctx → run rctx) (l : list action) (c : rctx) : run rctx :=
  match l with [] => Some (Ok c) | a :: l => run_bind (apply_action X jump a c) (apply_list X jump l) end.
Lemma apply_action_all X jump l c : apply_action X jump (AAll l) c = apply_list X jump l c.
Proof.
  revert c. induction l as [|a l IH]; intros c; [done|].
  cbn [apply_action apply_list]. destruct (apply_action X jump a c) as [[c'|e|]|]; cbn [run_bind]; [|done|done|done].
  rewrite <- IH. done.
Qed.
Lemma apply_action_rest X jump a c : (∀ l, a ≠ AAll l) →
  apply_action X jump a c = match do_edit X a c with
    | Some c' => Some (Ok c')
    | None => match a with AJump n => jump n c | _ => Some (Err ERuleError) end
    end.
Proof. intros H. destruct a; try done. by destruct (H l). Qed.

Lemma run_bind_some {A B} (r : run A) (k : A → run B) out : run_bind r k = Some out →
  (∃ a, r = Some (Ok a) ∧ k a = Some out) ∨ (∃ e, r = Some (Err e) ∧ out = Err e) ∨ (r = Some Panic ∧ out = Panic).
Proof. destruct r as [[a|e|]|]; cbn; intros; simplify_eq; eauto 10. Qed.

(** More fuel does not change an outcome. *)
Definition grows (j j' : str → rctx → run rctx) : Prop := ∀ n c out, j n c = Some out → j' n c = Some out.
Lemma run_bind_grows {A B} (r r' : run A) (k k' : A → run B) out :
  (∀ o, r = Some o → r' = Some o) → (∀ a o, k a = Some o → k' a = Some o) →
  run_bind r k = Some out → run_bind r' k' = Some out.
Proof.
  intros Hr Hk H. apply run_bind_some in H as [(a & E & H)|[(e & E & ->)|[E ->]]]; rewrite (Hr _ E); cbn; auto.
Qed.
Lemma apply_action_grows X j j' a : grows j j' → ∀ c out, apply_action X j a c = Some out → apply_action X j' a c = Some out.
Proof.
  intros Hj. induction a as [l IH|a Ha] using action_nest; intros c out.
  - rewrite !apply_action_all. revert c out. induction IH as [|a l Ha _ IH]; intros c out; cbn [apply_list]; [done|].
    apply run_bind_grows; auto.
  - rewrite !apply_action_rest by done. destruct (do_edit X a c); [done|]. destruct a; auto.
Qed.
Lemma apply_rules_grows X ho j j' rs : grows j j' → ∀ c out, apply_rules X ho j rs c = Some out → apply_rules X ho j' rs c = Some out.
Proof.
  intros Hj. induction rs as [|r rs IH]; intros c out; cbn [apply_rules]; [done|].
  apply run_bind_grows.
  - intros o. unfold apply_rule. destruct (is_match X ho (r_predicate r) c); [|done].
    apply run_bind_grows; [|done]. intros o'. by apply apply_action_grows.
  - intros [[] c'] o; [apply IH|done].
Qed.
Lemma apply_chain_grows X ho T n n' : n ≤ n' → grows (apply_chain X ho T n) (apply_chain X ho T n').
Proof.
  revert n'. induction n as [|n IH]; intros n' Hn name c out; cbn [apply_chain]; [done|].
  destruct n' as [|n']; [lia|]. cbn [apply_chain]. destruct (T !! name); [|done].
  apply apply_rules_grows. apply IH. lia.
Qed.
Lemma apply_chain_det X ho T n n' name c out out' :
  apply_chain X ho T n name c = Some out → apply_chain X ho T n' name c = Some out' → out = out'.
Proof.
  intros H1 H2. apply (apply_chain_grows _ _ _ _ (n `max` n')) in H1; [|lia].
  apply (apply_chain_grows _ _ _ _ (n `max` n')) in H2; [|lia]. congruence.
Qed.

(** * The evaluator and the relation *)

Lemma act_no_panic X j a : (∀ n c, j n c ≠ Some Panic) → ∀ c, apply_action X j a c ≠ Some Panic.
Proof.
  intros Hj. induction a as [l IH|a Ha] using action_nest; intros c.
  - rewrite apply_action_all. revert c. induction IH as [|a l Ha _ IH]; intros c; cbn [apply_list]; [done|].
    intros [(c1 & E & H)|[(e & E & ?)|[E ?]]]%run_bind_some; [by destruct (IH c1)|done|by destruct (Ha c)].
  - rewrite apply_action_rest by done. destruct (do_edit X a c); [done|]. destruct a; auto.
Qed.
Lemma rules_no_panic X ho j rs : (∀ n c, j n c ≠ Some Panic) → ∀ c, apply_rules X ho j rs c ≠ Some Panic.
Proof.
  intros Hj. induction rs as [|r rs IH]; intros c; cbn [apply_rules]; [done|]. unfold apply_rule.
  destruct (is_match X ho (r_predicate r) c); [|apply IH].
  destruct (apply_action X j (r_action r) c) as [[c'|e|]|] eqn:E; cbn [run_bind]; [|done| |done].
  - destruct (r_result r); [apply IH|done].
  - by destruct (act_no_panic X j (r_action r) Hj c).
Qed.
Lemma chain_no_panic X ho T n name c : apply_chain X ho T n name c ≠ Some Panic.
Proof.
  revert name c. induction n as [|n IH]; intros name c; cbn [apply_chain]; [done|].
  destruct (T !! name); [|done]. by apply rules_no_panic.
Qed.

Lemma act_sound X T j : (∀ n c, j n c ≠ Some Panic) → (∀ n c out, j n c = Some out → chain_ends X T n c out) →
  ∀ a c out, apply_action X j a c = Some out → acts X T a c out.
Proof.
  intros Hp Hj. induction a as [l IH|a Ha] using action_nest; intros c out.
  - rewrite apply_action_all. revert c. induction IH as [|a l Ha _ IH]; intros c; cbn [apply_list].
    + intros [= <-]. apply acts_all_none.
    + intros [(c1 & E & H)|[(e & E & ->)|[E ->]]]%run_bind_some.
      * eapply acts_all_ok; eauto.
      * apply acts_all_err. auto.
      * by destruct (act_no_panic X j a Hp c).
  - rewrite apply_action_rest by done. destruct (do_edit X a c) as [c'|] eqn:E.
    + intros [= <-]. constructor. by apply edits_spec.
    + destruct a; try done.
      * by destruct (Ha l).
      * intros [= <-]. constructor.
      * intros H. constructor. auto.
Qed.
Lemma rules_sound X ho T j rs : hash_order_ok ho → (∀ n c, j n c ≠ Some Panic) →
  (∀ n c out, j n c = Some out → chain_ends X T n c out) →
  ∀ c out, apply_rules X ho j rs c = Some out → rules_end X T rs c out.
Proof.
  intros Hho Hp Hj. induction rs as [|r rs IH]; intros c out; cbn [apply_rules].
  - intros [= <-]. constructor.
  - unfold apply_rule. destruct (is_match X ho (r_predicate r) c) eqn:Em.
    + apply is_match_holds in Em; [|done].
      destruct (apply_action X j (r_action r) c) as [[c'|e|]|] eqn:E; cbn [run_bind].
      * apply (act_sound X T j Hp Hj) in E. destruct (r_result r) eqn:Er.
        -- intros H. eapply end_continue; eauto.
        -- intros [= <-]. by apply end_return.
      * apply (act_sound X T j Hp Hj) in E. intros [= <-]. by apply end_err.
      * by destruct (act_no_panic X j (r_action r) Hp c).
      * done.
    + apply is_match_fails in Em; [|done]. cbn [run_bind]. intros H. apply end_skip; auto.
Qed.
Lemma chain_sound X ho T n name c out : hash_order_ok ho → apply_chain X ho T n name c = Some out → chain_ends X T name c out.
Proof.
  intros Hho. revert name c out. induction n as [|n IH]; intros name c out; cbn [apply_chain]; [done|].
  destruct (T !! name) as [rs|] eqn:E.
  - intros H. apply (chain_found _ _ _ rs); [done|]. apply (rules_sound X ho T (apply_chain X ho T n)); [done| |done|done].
    intros. apply chain_no_panic.
  - intros [= <-]. by apply chain_missing.
Qed.

Scheme acts_mind := Minimality for acts Sort Prop
  with rules_end_mind := Minimality for rules_end Sort Prop
  with chain_ends_mind := Minimality for chain_ends Sort Prop.
Combined Scheme ends_mind from acts_mind, rules_end_mind, chain_ends_mind.

Lemma ends_complete X ho T : hash_order_ok ho →
  (∀ a c out, acts X T a c out → ∃ n, apply_action X (apply_chain X ho T n) a c = Some out) ∧
  (∀ rs c out, rules_end X T rs c out → ∃ n, apply_rules X ho (apply_chain X ho T n) rs c = Some out) ∧
  (∀ name c out, chain_ends X T name c out → ∃ n, apply_chain X ho T n name c = Some out).
Proof.
  intros Hho. apply ends_mind.
  - intros a c c' H. exists 0. apply edits_spec in H. rewrite apply_action_rest; [by rewrite H|]. by intros l ->.
  - intros msg c. by exists 0.
  - intros name c out _ [n H]. by exists n.
  - intros c. by exists 0.
  - intros a l c c1 out _ [n H] _ [n' H']. exists (n `max` n'). rewrite apply_action_all in *. cbn [apply_list].
    rewrite (apply_action_grows X (apply_chain X ho T n) (apply_chain X ho T (n `max` n')) a) with (out := Ok c1);
      [|apply apply_chain_grows; lia|done]. cbn [run_bind]. rewrite <- apply_action_all in *.
    apply (apply_action_grows X (apply_chain X ho T n')); [apply apply_chain_grows; lia|done].
  - intros a l c e _ [n H]. exists n. rewrite apply_action_all. cbn [apply_list]. by rewrite H.
  - intros c. by exists 0.
  - intros r rs c out Hf _ [n H]. exists n. cbn [apply_rules]. unfold apply_rule.
    apply (is_match_fails X ho) in Hf; [|done]. by rewrite Hf.
  - intros r rs c e Hf _ [n H]. exists n. cbn [apply_rules]. unfold apply_rule.
    apply (is_match_holds X ho) in Hf; [|done]. by rewrite Hf, H.
  - intros r rs c c1 Hf _ [n H] Hr. exists n. cbn [apply_rules]. unfold apply_rule.
    apply (is_match_holds X ho) in Hf; [|done]. rewrite Hf, H. cbn [run_bind]. by rewrite Hr.
  - intros r rs c c1 out Hf _ [n H] Hr _ [n' H']. exists (n `max` n'). cbn [apply_rules]. unfold apply_rule.
    apply (is_match_holds X ho) in Hf; [|done]. rewrite Hf.
    rewrite (apply_action_grows X (apply_chain X ho T n) (apply_chain X ho T (n `max` n')) (r_action r)) with (out := Ok c1);
      [|apply apply_chain_grows; lia|done]. cbn [run_bind]. rewrite Hr.
    apply (apply_rules_grows X ho (apply_chain X ho T n')); [apply apply_chain_grows; lia|done].
  - intros name rs c out E _ [n H]. exists (S n). cbn [apply_chain]. by rewrite E.
  - intros name c E. exists 1. cbn [apply_chain]. by rewrite E.
Qed.

Lemma c54_meaning X ho T name c out : hash_order_ok ho →
  (∃ n, apply_chain X ho T n name c = Some out) ↔ chain_ends X T name c out.
Proof.
  intros Hho. split.
  - intros [n H]. by apply (chain_sound X ho T n).
  - by apply ends_complete.
Qed.
Lemma c54_fuel X ho T n n' name c out : n ≤ n' →
  apply_chain X ho T n name c = Some out → apply_chain X ho T n' name c = Some out.
Proof. intros Hn. by apply apply_chain_grows. Qed.
Lemma c54_det X T name c out out' : chain_ends X T name c out → chain_ends X T name c out' → out = out'.
Proof.
  rewrite <- !(c54_meaning X default_order) by apply default_order_ok. intros [n H] [n' H']. by apply (apply_chain_det X default_order T n n' name c).
Qed.

(** Proofs for C124: applying the same rules again. *)
From stdpp Require Import gmap list relations.
From Verif Require Import MergeClaims.
From Verif Require Import Base Types CommentModel MergeModel CmdModel SpecBase BaseProofs CmdClaims RulesModel RulesClaims RulesProofs RulesLaws PipeClaims Pipe AgainClaims.
Local Open Scope nat_scope.

(** * Overwriting *)
Section overwrite.
  Context {A O : Type} (f : A → O → A).
  (** Every operation gives a fixed value or changes nothing. *)
  Context (Hf : ∀ o, (∃ v, ∀ a, f a o = v) ∨ ∀ a, f a o = a).
  Lemma overwrite l : (∃ v, ∀ a, foldl f a l = v) ∨ ∀ a, foldl f a l = a.
  Proof.
    induction l as [|o l IH]; [by right|]. cbn [foldl]. destruct IH as [[v IH]|IH].
    - left. exists v. intros a. apply IH.
    - destruct (Hf o) as [[v Ho]|Ho]; [left; exists v|right]; intros a; by rewrite IH, Ho.
  Qed.
  Lemma overwrite_twice l a : foldl f (foldl f a l) l = foldl f a l.
  Proof. destruct (overwrite l) as [[v H]|H]; by rewrite !H. Qed.
End overwrite.

(** * The edits of a run *)
Definition fold_account (a : str) (o : action) : str := match o with ASetAccount v => v | _ => a end.
Definition fold_flags (s : gset str) (o : action) : gset str :=
  match o with AAddPostFlag t => {[t]} ∪ s | ARemovePostFlag t => s ∖ {[t]} | _ => s end.
Definition fold_values (m : gmap str str) (o : action) : gmap str str :=
  match o with AAddPostValue k v => <[k := v]> m | ARemovePostValue k => delete k m | _ => m end.
Definition fold_trn_flags (s : gset str) (o : action) : gset str :=
  match o with AAddTrnFlag t => {[t]} ∪ s | ARemoveTrnFlag t => s ∖ {[t]} | _ => s end.
Definition fold_trn_values (m : gmap str str) (o : action) : gmap str str :=
  match o with AAddTrnValue k v => <[k := v]> m | ARemoveTrnValue k => delete k m | _ => m end.
Definition fold_description (X : text_env) (d : str) (o : action) : str :=
  match o with AReplaceDescription r s => rx_replace X r s d | _ => d end.
Definition do_post (l : list action) (p : posting_internal) : posting_internal :=
  PI (set_account (foldl fold_account (p_account (pi_raw p)) l) (pi_raw p))
    (Comment (lines (pi_comment p)) (foldl fold_flags (tags (pi_comment p)) l) (foldl fold_values (value_tags (pi_comment p)) l)).
Definition do_trn (X : text_env) (l : list action) (t : transaction_internal) : transaction_internal :=
  TI (set_description (foldl (fold_description X) (t_description (ti_raw t)) l) (ti_raw t))
    (Comment (lines (ti_comment t)) (foldl fold_trn_flags (tags (ti_comment t)) l) (foldl fold_trn_values (value_tags (ti_comment t)) l)).
Definition do_edits (X : text_env) (l : list action) (c : rctx) : rctx := RCtx (do_trn X l (rc_trn c)) (do_post l (rc_post c)).

Lemma do_nil X c : do_edits X [] c = c.
Proof. by destruct c as [[[] []] [[] []]]. Qed.
Lemma do_trn_app X l k t : do_trn X (l ++ k) t = do_trn X k (do_trn X l t).
Proof. unfold do_trn. cbn. rewrite !foldl_app. by destruct t as [[] []]. Qed.
Lemma do_post_app l k p : do_post (l ++ k) p = do_post k (do_post l p).
Proof. unfold do_post. cbn. rewrite !foldl_app. by destruct p as [[] []]. Qed.
Lemma do_app X l k c : do_edits X (l ++ k) c = do_edits X k (do_edits X l c).
Proof. unfold do_edits. cbn [rc_trn rc_post]. by rewrite do_trn_app, do_post_app. Qed.
Lemma do_post_nil p : do_post [] p = p.
Proof. by destruct p as [[] []]. Qed.
Lemma do_trn_nil X t : do_trn X [] t = t.
Proof. by destruct t as [[] []]. Qed.


Definition flag_bit (t : str) (b : bool) (o : action) : bool :=
  match o with AAddPostFlag t' => if decide (t = t') then true else b | ARemovePostFlag t' => if decide (t = t') then false else b | _ => b end.
Definition trn_flag_bit (t : str) (b : bool) (o : action) : bool :=
  match o with AAddTrnFlag t' => if decide (t = t') then true else b | ARemoveTrnFlag t' => if decide (t = t') then false else b | _ => b end.
Definition value_bit (k : str) (v : option str) (o : action) : option str :=
  match o with AAddPostValue k' x => if decide (k = k') then Some x else v | ARemovePostValue k' => if decide (k = k') then None else v | _ => v end.
Definition trn_value_bit (k : str) (v : option str) (o : action) : option str :=
  match o with AAddTrnValue k' x => if decide (k = k') then Some x else v | ARemoveTrnValue k' => if decide (k = k') then None else v | _ => v end.
Lemma flag_bit_ok t l s : bool_decide (t ∈ foldl fold_flags s l) = foldl (flag_bit t) (bool_decide (t ∈ s)) l.
Proof.
  revert s. induction l as [|o l IH]; intros s; [done|]. cbn [foldl]. rewrite IH. f_equal. destruct o; try done; cbn [fold_flags flag_bit].
  - case_decide; [apply bool_decide_eq_true; set_solver|]. apply bool_decide_ext. set_solver.
  - case_decide; [apply bool_decide_eq_false; set_solver|]. apply bool_decide_ext. set_solver.
Qed.
Lemma trn_flag_bit_ok t l s : bool_decide (t ∈ foldl fold_trn_flags s l) = foldl (trn_flag_bit t) (bool_decide (t ∈ s)) l.
Proof.
  revert s. induction l as [|o l IH]; intros s; [done|]. cbn [foldl]. rewrite IH. f_equal. destruct o; try done; cbn [fold_trn_flags trn_flag_bit].
  - case_decide; [apply bool_decide_eq_true; set_solver|]. apply bool_decide_ext. set_solver.
  - case_decide; [apply bool_decide_eq_false; set_solver|]. apply bool_decide_ext. set_solver.
Qed.
Lemma value_bit_ok (k : str) (l : list action) (m : gmap str str) : foldl fold_values m l !! k = foldl (value_bit k) (m !! k) l.
Proof.
  revert m. induction l as [|o l IH]; intros m; [done|]. cbn [foldl]. rewrite IH. f_equal. destruct o; try done; cbn [fold_values value_bit].
  - case_decide as Hk; [subst; by rewrite lookup_insert|]. by rewrite lookup_insert_ne.
  - case_decide as Hk; [subst; by rewrite lookup_delete|]. by rewrite lookup_delete_ne.
Qed.
Lemma trn_value_bit_ok (k : str) (l : list action) (m : gmap str str) : foldl fold_trn_values m l !! k = foldl (trn_value_bit k) (m !! k) l.
Proof.
  revert m. induction l as [|o l IH]; intros m; [done|]. cbn [foldl]. rewrite IH. f_equal. destruct o; try done; cbn [fold_trn_values trn_value_bit].
  - case_decide as Hk; [subst; by rewrite lookup_insert|]. by rewrite lookup_insert_ne.
  - case_decide as Hk; [subst; by rewrite lookup_delete|]. by rewrite lookup_delete_ne.
Qed.
Ltac overwrites := intros o; destruct o; try (right; done); cbn; try (case_decide; [left; by eexists|by right]); left; by eexists.
Lemma account_twice l a : foldl fold_account (foldl fold_account a l) l = foldl fold_account a l.
Proof. apply overwrite_twice. overwrites. Qed.
Lemma flags_twice l s : foldl fold_flags (foldl fold_flags s l) l = foldl fold_flags s l.
Proof.
  apply set_eq. intros t. rewrite <- (bool_decide_eq_true (t ∈ foldl fold_flags (foldl fold_flags s l) l)), <- (bool_decide_eq_true (t ∈ foldl fold_flags s l)).
  rewrite !flag_bit_ok. rewrite overwrite_twice; [done|]. overwrites.
Qed.
Lemma trn_flags_twice l s : foldl fold_trn_flags (foldl fold_trn_flags s l) l = foldl fold_trn_flags s l.
Proof.
  apply set_eq. intros t. rewrite <- (bool_decide_eq_true (t ∈ foldl fold_trn_flags (foldl fold_trn_flags s l) l)), <- (bool_decide_eq_true (t ∈ foldl fold_trn_flags s l)).
  rewrite !trn_flag_bit_ok. rewrite overwrite_twice; [done|]. overwrites.
Qed.
Lemma values_twice l m : foldl fold_values (foldl fold_values m l) l = foldl fold_values m l.
Proof. apply map_eq. intros k. rewrite !value_bit_ok. apply overwrite_twice. overwrites. Qed.
Lemma trn_values_twice l m : foldl fold_trn_values (foldl fold_trn_values m l) l = foldl fold_trn_values m l.
Proof. apply map_eq. intros k. rewrite !trn_value_bit_ok. apply overwrite_twice. overwrites. Qed.
Lemma do_post_twice l p : do_post l (do_post l p) = do_post l p.
Proof. unfold do_post. cbn. rewrite account_twice, flags_twice, values_twice. done. Qed.
Definition once_for (X : text_env) (l : list action) : Prop :=
  ∀ r s r' s' d, AReplaceDescription r s ∈ l → AReplaceDescription r' s' ∈ l → rx_replace X r s (rx_replace X r' s' d) = rx_replace X r' s' d.
Lemma description_same X l d r s : once_for X l → AReplaceDescription r s ∈ l → ∀ k, k ⊆ l →
  foldl (fold_description X) (rx_replace X r s d) k = rx_replace X r s d.
Proof.
  intros H Hin k. induction k as [|o k IH]; intros Hk; [done|]. cbn [foldl].
  assert (fold_description X (rx_replace X r s d) o = rx_replace X r s d) as ->.
  { destruct o as [| | | | | | | | | | | | |r' s']; try done. cbn [fold_description]. apply H; [|done]. apply Hk. left. }
  apply IH. intros x Hx. apply Hk. by right.
Qed.
Lemma description_twice X l d : once_for X l →
  foldl (fold_description X) (foldl (fold_description X) d l) l = foldl (fold_description X) d l.
Proof.
  intros H. assert (∀ k, k ⊆ l → foldl (fold_description X) d k = d ∨ ∃ r s, AReplaceDescription r s ∈ l ∧ foldl (fold_description X) d k = rx_replace X r s d) as Hk.
  { intros k. induction k as [|o k IH]; intros Hk; [by left|]. cbn [foldl].
    destruct o as [| | | | | | | | | | | | |r s]; try (apply IH; intros x Hx; apply Hk; by right).
    right. exists r, s. split; [apply Hk; left|]. cbn [fold_description]. eapply description_same; [exact H|apply Hk; left|]. intros x Hx. apply Hk. by right. }
  destruct (Hk l ltac:(done)) as [E|(r & s & Hin & E)]; rewrite E; [done|]. by apply (description_same X l).
Qed.
Lemma do_trn_twice X l t : once_for X l → do_trn X l (do_trn X l t) = do_trn X l t.
Proof. intros H. unfold do_trn. cbn. rewrite trn_flags_twice, trn_values_twice, description_twice by done. done. Qed.

(** * What predicates see *)
Definition same_at (x : spot) (c d : rctx) : Prop :=
  match x with
  | AccountSpot => p_account (pi_raw (rc_post c)) = p_account (pi_raw (rc_post d))
  | FlagSpot t => has_tag (rc_post c) t ↔ has_tag (rc_post d) t
  | ValueSpot k => value_tags (pi_comment (rc_post c)) !! k = value_tags (pi_comment (rc_post d)) !! k
  | DescriptionSpot => t_description (ti_raw (rc_trn c)) = t_description (ti_raw (rc_trn d))
  | TrnFlagSpot t => t ∈ tags (ti_comment (rc_trn c)) ↔ t ∈ tags (ti_comment (rc_trn d))
  | TrnValueSpot k => value_tags (ti_comment (rc_trn c)) !! k = value_tags (ti_comment (rc_trn d)) !! k
  end.
Lemma same_at_sym x c d : same_at x c d → same_at x d c.
Proof. destruct x; cbn; (by symmetry) || (by intros ->). Qed.
Lemma same_at_trans x c d e : same_at x c d → same_at x d e → same_at x c e.
Proof. destruct x; cbn; intros H1 H2; by rewrite H1. Qed.
Lemma holds_same X c d p : (∀ x, looks_at X p x → same_at x c d) → holds_for X c p → holds_for X d p.
Proof.
  revert c d. induction p as [l IH|l IH|m|m|t|k|k m|p IH|m|] using predicate_nest; intros c d Hs H; inversion H as [|? H1|? ? H1 H2|? H1|? H1|? H1|? ? H1 H2|? H1|? v H1|? ? v H1 H2]; subst.
  - constructor. intros p Hp. rewrite Forall_forall in IH. apply (IH p Hp c); [|auto]. intros x Hx. apply Hs. by econstructor.
  - econstructor; [done|]. rewrite Forall_forall in IH. apply (IH _ H1 c); [|done]. intros x Hx. apply Hs. by econstructor.
  - constructor. rewrite <- (Hs AccountSpot); [done|constructor].
  - econstructor; [|done]. apply (Hs (FlagSpot _)); [by constructor|done].
  - constructor. apply (Hs (FlagSpot _)); [by constructor|done].
  - econstructor. rewrite <- (Hs (ValueSpot _)); [done|constructor].
  - econstructor; [|done]. rewrite <- (Hs (ValueSpot _)); [done|constructor].
  - constructor. apply holds_not. intros Hd. apply holds_not in H1. apply H1. apply (IH d); [|done]. intros x Hx. apply same_at_sym, Hs. by constructor.
  - constructor. rewrite <- (Hs DescriptionSpot); [done|constructor].
  - constructor.
Qed.

Section again.
  Context (X : text_env) (T : table).
  Context (Hlook : looks_elsewhere X T).
  Definition mine (l : list action) : Prop := ∀ a, a ∈ l → has_action T a.
  Definition seen_same (c d : rctx) : Prop := ∀ p x, has_predicate T p → looks_at X p x → same_at x c d.
  Lemma seen_sym c d : seen_same c d → seen_same d c.
  Proof. intros H p x Hp Hx. by apply same_at_sym, (H p). Qed.
  Lemma seen_trans c d e : seen_same c d → seen_same d e → seen_same c e.
  Proof. intros H1 H2 p x Hp Hx. eapply same_at_trans; [by apply (H1 p)|by apply (H2 p)]. Qed.
  (** The header may be another with the same description, if that matters. *)
  Lemma bits_kept {A} (f : A → action → A) l a : (∀ o b, o ∈ l → f b o = b) → foldl f a l = a.
  Proof. induction l as [|o l IH]; intros H; [done|]. cbn [foldl]. rewrite H by left. apply IH. intros o' b Ho. apply H. by right. Qed.
  Lemma spot_kept x l k t p : (∀ a, a ∈ l ∨ a ∈ k → ¬ changes a x) → same_at x (RCtx t p) (RCtx (do_trn X l t) (do_post k p)).
  Proof.
    intros H. destruct x as [|t'|k'| |t'|k']; cbn; unfold has_tag; cbn.
    - symmetry. apply bits_kept. intros o b Ho. destruct o; try done. destruct (H (ASetAccount a)); [by right|constructor].
    - rewrite <- (bool_decide_eq_true (t' ∈ foldl _ _ _)), flag_bit_ok, bits_kept; [by rewrite bool_decide_eq_true|].
      intros o b Ho. destruct o; try done; cbn; case_decide; try done; subst; (edestruct H; [right; exact Ho|constructor]).
    - rewrite value_bit_ok, bits_kept; [done|].
      intros o b Ho. destruct o; try done; cbn; case_decide; try done; subst; (edestruct H; [right; exact Ho|constructor]).
    - symmetry. apply bits_kept. intros o b Ho. destruct o; try done. edestruct H; [left; exact Ho|constructor].
    - rewrite <- (bool_decide_eq_true (t' ∈ foldl _ _ _)), trn_flag_bit_ok, bits_kept; [by rewrite bool_decide_eq_true|].
      intros o b Ho. destruct o; try done; cbn; case_decide; try done; subst; (edestruct H; [left; exact Ho|constructor]).
    - rewrite trn_value_bit_ok, bits_kept; [done|].
      intros o b Ho. destruct o; try done; cbn; case_decide; try done; subst; (edestruct H; [left; exact Ho|constructor]).
  Qed.
  Lemma seen_kept l k t p : mine l → mine k → seen_same (RCtx t p) (RCtx (do_trn X l t) (do_post k p)).
  Proof. intros Hl Hk q x Hq Hx. apply spot_kept. intros a [Ha|Ha]; eapply Hlook; eauto. Qed.
  Lemma seen_do l c : mine l → seen_same c (do_edits X l c).
  Proof. intros Hl. destruct c as [t p]. by apply seen_kept. Qed.
  Lemma holds_seen c d p : has_predicate T p → seen_same c d → holds_for X c p → holds_for X d p.
  Proof. intros Hp Hs. apply holds_same. intros x. by apply Hs. Qed.
  Lemma fails_seen c d p : has_predicate T p → seen_same c d → fails_for X c p → fails_for X d p.
  Proof. intros Hp Hs. rewrite !holds_not. intros Hn Hd. apply Hn. by apply (holds_seen d c p Hp (seen_sym _ _ Hs)). Qed.

  Lemma edit_is a c c' : edits X a c c' → c' = do_edits X [a] c.
  Proof.
    intros H%edits_spec. unfold do_edits, do_trn, do_post. cbn [foldl]. destruct c as [[[] []] [[] []]].
    destruct a; cbn in H |- *; by simplify_eq.
  Qed.
  Lemma edit_any a c c' d : edits X a c c' → edits X a d (do_edits X [a] d).
  Proof.
    intros H%edits_spec. apply edits_spec. unfold do_edits, do_trn, do_post. cbn [foldl]. destruct d as [[[] []] [[] []]].
    destruct a; cbn in H |- *; done.
  Qed.
  Definition runs_like (run : rctx → result rctx → Prop) (c c' : rctx) : Prop :=
    ∃ l, mine l ∧ c' = do_edits X l c ∧ ∀ d, seen_same c d → run d (Ok (do_edits X l d)).
  Lemma ends_trace :
    (∀ a c out, acts X T a c out → known T a → ∀ c', out = Ok c' → runs_like (acts X T a) c c') ∧
    (∀ rs c out, rules_end X T rs c out → (∀ r, r ∈ rs → known T (r_action r) ∧ has_predicate T (r_predicate r)) → ∀ c', out = Ok c' → runs_like (rules_end X T rs) c c') ∧
    (∀ name c out, chain_ends X T name c out → ∀ c', out = Ok c' → runs_like (chain_ends X T name) c c').
  Proof.
    apply ends_mind; try (intros; discriminate).
    - intros a c c1 H Ha c' [= <-]. exists [a]. split.
      { intros b ->%elem_of_list_singleton. apply Ha; [constructor|]. by intros l ->. }
      split; [by apply edit_is|]. intros d _. constructor. by eapply edit_any.
    - intros name c out _ IH _ c' ->. destruct (IH c' eq_refl) as (l & H1 & H2 & H3). exists l. split; [done|]. split; [done|].
      intros d Hd. apply acts_jump. by apply H3.
    - intros c _ c' [= <-]. exists []. split; [by intros a ?%elem_of_nil|]. split; [by rewrite do_nil|]. intros d _. rewrite do_nil. apply acts_all_none.
    - intros a l c c1 out _ IH1 _ IH2 [Ha Hl]%known_cons c' ->.
      destruct (IH1 Ha c1 eq_refl) as (l1 & A1 & -> & A3). destruct (IH2 Hl c' eq_refl) as (l2 & B1 & -> & B3).
      exists (l1 ++ l2). split; [intros x [?|?]%elem_of_app; auto|]. split; [by rewrite do_app|].
      intros d Hd. rewrite do_app. eapply acts_all_ok; [by apply A3|]. apply B3.
      eapply seen_trans; [apply seen_sym, seen_do; done|]. eapply seen_trans; [exact Hd|by apply seen_do].
    - intros c _ c' [= <-]. exists []. split; [by intros a ?%elem_of_nil|]. split; [by rewrite do_nil|]. intros d _. rewrite do_nil. constructor.
    - intros r rs c out Hf _ IH Hk c' ->. destruct (IH ltac:(intros; apply Hk; by right) c' eq_refl) as (l & H1 & H2 & H3).
      exists l. split; [done|]. split; [done|]. intros d Hd. apply end_skip; [|by apply H3]. eapply fails_seen; [apply Hk; left|exact Hd|done].
    - intros r rs c c1 Hh _ IH Hr Hk c' [= <-]. destruct (IH ltac:(apply Hk; left) c1 eq_refl) as (l & H1 & H2 & H3).
      exists l. split; [done|]. split; [done|]. intros d Hd. apply end_return; [|by apply H3|done]. eapply holds_seen; [apply Hk; left|exact Hd|done].
    - intros r rs c c1 out Hh _ IH1 Hr _ IH2 Hk c' ->.
      destruct (IH1 ltac:(apply Hk; left) c1 eq_refl) as (l1 & A1 & -> & A3). destruct (IH2 ltac:(intros; apply Hk; by right) c' eq_refl) as (l2 & B1 & -> & B3).
      exists (l1 ++ l2). split; [intros x [?|?]%elem_of_app; auto|]. split; [by rewrite do_app|].
      intros d Hd. rewrite do_app. eapply end_continue; [|by apply A3|done|].
      + eapply holds_seen; [apply Hk; left|exact Hd|done].
      + apply B3. eapply seen_trans; [apply seen_sym, seen_do; done|]. eapply seen_trans; [exact Hd|by apply seen_do].
    - intros name rs c out E _ IH c' ->. destruct (IH) with (c' := c') as (l & H1 & H2 & H3); [|done|].
      + intros r Hr. split; [intros b Hb _; by exists name, rs, r|by exists name, rs, r].
      + exists l. split; [done|]. split; [done|]. intros d Hd. econstructor; [done|]. by apply H3.
  Qed.
  Definition header_same (t u : transaction_internal) : Prop := ∀ p, seen_same (RCtx t p) (RCtx u p).
  Lemma header_do l t : mine l → header_same t (do_trn X l t).
  Proof. intros Hl p q x Hq Hx. rewrite <- (do_post_nil p) at 2. apply spot_kept. intros a [Ha|Ha%elem_of_nil]; [eauto|done]. Qed.
  Lemma post_do l u p : mine l → seen_same (RCtx u p) (RCtx u (do_post l p)).
  Proof. intros Hl q x Hq Hx. rewrite <- (do_trn_nil X u) at 2. apply spot_kept. intros a [Ha%elem_of_nil|Ha]; [done|eauto]. Qed.
  (** The edits of all the postings of a transaction. *)
  Lemma posts_trace t ps t' ps' : posts_end X T t ps t' ps' →
    ∃ l, mine l ∧ t' = do_trn X l t ∧ ∀ u, header_same t u → posts_end X T u ps' (do_trn X l u) ps'.
  Proof.
    induction 1 as [t|t p ps t1 p1 t2 ps2 Hc H (ls & L1 & L2 & L3)].
    - exists []. split; [by intros a ?%elem_of_nil|]. split; [by rewrite do_trn_nil|]. intros u _. rewrite do_trn_nil. constructor.
    - destruct (proj2 (proj2 ends_trace) _ _ _ Hc _ eq_refl) as (l & M & E & Hd). injection E as E1 E2. cbn [rc_trn rc_post] in E1, E2.
      exists (l ++ ls). split; [intros a [?|?]%elem_of_app; auto|]. split; [by rewrite do_trn_app, <- E1|].
      intros u Hu. specialize (Hd (RCtx u p1)). rewrite E2 in Hd.
      specialize (Hd (seen_trans _ _ _ (Hu p) (post_do l u p M))).
      unfold do_edits in Hd. cbn [rc_trn rc_post] in Hd. rewrite do_post_twice, <- E2 in Hd. econstructor; [exact Hd|].
      rewrite do_trn_app. apply L3. intros q. rewrite E1. eapply seen_trans; [apply seen_sym, (header_do l t M)|].
      eapply seen_trans; [apply Hu|by apply header_do].
  Qed.
  Lemma trn_again tp tp' : replaces_once X T → posts_end X T (tp_trn tp) (tp_posts tp) (tp_trn tp') (tp_posts tp') →
    posts_end X T (tp_trn tp') (tp_posts tp') (tp_trn tp') (tp_posts tp').
  Proof.
    intros Ho (l & M & E & H)%posts_trace.
    assert (header_same (tp_trn tp) (tp_trn tp')) as Hs by (rewrite E; by apply header_do).
    assert (do_trn X l (tp_trn tp') = tp_trn tp') as E'.
    { rewrite E at 1. rewrite do_trn_twice; [by rewrite E|]. intros r s r' s' d H1 H2. apply Ho; by apply M. }
    specialize (H _ Hs). by rewrite E' in H.
  Qed.
  Lemma again tps out : replaces_once X T → ruled X T tps out → ruled X T out out.
  Proof. intros Ho H. induction H as [|tp tp' tps out H _ IH]; constructor; [|done]. by eapply trn_again. Qed.
End again.

(** * Rules that settle *)
Lemma leaves_header X T : leaves_transactions T → ∀ name c c', chain_ends X T name c (Ok c') → rc_trn c' = rc_trn c.
Proof.
  intros HT name c c' H.
  refine (proj2 (proj2 (ends_invariant X T (λ c c', rc_trn c' = rc_trn c) _ _ _)) name c (Ok c') H c' eq_refl).
  - done.
  - intros a b d E1 E2. by rewrite E2.
  - intros a d d' Ha Hd. rewrite (edit_is X a d d' Hd). unfold do_edits. cbn [rc_trn].
    assert (∀ x, changes a x → x = AccountSpot ∨ (∃ t, x = FlagSpot t) ∨ ∃ k, x = ValueSpot k) as Hx by (intros x; by apply HT).
    unfold do_trn. destruct (rc_trn d) as [[] []]. cbn.
    destruct a; try done; exfalso;
      first [pose proof (Hx _ (change_add_trn_flag _)) as Hy|pose proof (Hx _ (change_add_trn_value _ _)) as Hy|pose proof (Hx _ (change_remove_trn_flag _)) as Hy
        |pose proof (Hx _ (change_remove_trn_value _)) as Hy|pose proof (Hx _ (change_description _ _)) as Hy];
      destruct Hy as [?|[(?&?)|(?&?)]]; discriminate.
Qed.
Lemma rules_skip X T rs c : (∀ r, r ∈ rs → ¬ holds_for X c (r_predicate r)) → rules_end X T rs c (Ok c).
Proof.
  induction rs as [|r rs IH]; intros H; [constructor|]. apply end_skip; [apply holds_not, H; left|]. apply IH. intros r' Hr. apply H. by right.
Qed.
Lemma settled X T g tps out : leaves_transactions T → only_for X T g → is_Some (T !! s2l "start") → ruled X T tps out → changed_done g tps out → ruled X T out out.
Proof.
  intros HT Hg [rs Hs] H Hd. unfold changed_done in Hd. induction H as [|tp tp' tps out H _ IH]; inversion Hd as [|? ? ? ? Hp Hd']; subst; constructor; [|by apply IH].
  clear IH Hd Hd'. assert (∀ t ps t' ps', posts_end X T t ps t' ps' → Forall2 (λ p p', p' = p ∨ ¬ g p') ps ps' → t' = t ∧ posts_end X T t ps' t ps') as K.
  { clear H Hp. intros t ps t' ps'. induction 1 as [t|t p ps t1 p1 t2 ps2 Hc H IH]; intros Hf; [split; [done|constructor]|].
    inversion Hf as [|? ? ? ? Hp Hf']; subst. pose proof (leaves_header X T HT _ _ _ Hc) as E. cbn in E. subst t1.
    destruct (IH Hf') as [-> IH']. split; [done|]. econstructor; [|exact IH'].
    destruct Hp as [-> |Hp]; [done|]. econstructor; [exact Hs|]. apply rules_skip. intros r Hr Hh. apply Hp. exact (Hg rs r _ Hs Hr Hh). }
  destruct (K _ _ _ _ H Hp) as [E Hk]. by rewrite E.
Qed.

(** Which comments settle when they are written and read again and again (C35, C119). *)
From Verif Require Import MergeClaims.
From Verif Require Import Base Types SpecBase BaseProofs StrProofs CommentModel CommentClaims CommentTextClaims CommentProofs CommentLaws CommentText CommentTags
  RereadClaims Reread CmdClaims LayoutClaims ExactClaims Exact RewriteClaims Rewrite.
From Coq Require Import Lia.
Local Open Scope nat_scope.

(** ** Exactly which *)
Lemma rewritten_same ho n k s : (∀ i, hash_order_ok (ho i)) → rewritten ho (n + 1) s = rewritten ho n s → rewritten ho (n + k + 1) s = rewritten ho (n + k) s.
Proof.
  intros Hho H. induction k as [|k IH]; [by rewrite Nat.add_0_r|].
  replace (n + S k + 1) with (S (n + k + 1)) by lia. replace (n + S k) with (S (n + k)) by lia.
  cbn [rewritten]. rewrite IH. by apply into_opt_comment_order.
Qed.
Lemma settles_at ho n s : (∀ i, hash_order_ok (ho i)) → 5 ≤ n →
  rewritten ho (n + 1) s = rewritten ho n s ↔ read_back_as_written (from_opt_comment (rewritten ho n s)).
Proof.
  intros Hho Hn. rewrite <- (exact_round_trip (ho n)) by done. rewrite Nat.add_1_r. cbn [rewritten]. split; [by intros ->|].
  intros H. pose proof (c119 ho n s Hho Hn) as Hc. replace (n + 2) with (S (S n)) in Hc by lia. cbn [rewritten] in Hc.
  rewrite H in Hc. rewrite <- Hc at 2. by apply into_opt_comment_order.
Qed.
Lemma settles_exact ho s : (∀ i, hash_order_ok (ho i)) →
  (∃ n, ∀ k, n ≤ k → rewritten ho (k + 1) s = rewritten ho k s) ↔ read_back_as_written (from_opt_comment (rewritten ho 5 s)).
Proof.
  intros Hho. rewrite <- (settles_at ho 5 s Hho) by lia. split.
  - intros [n H]. pose proof (H (5 + 2 * n)) as E. assert (n ≤ 5 + 2 * n) as Hle by lia. specialize (E Hle).
    assert (∀ m i, 5 ≤ i → rewritten ho (i + 2 * m) s = rewritten ho i s) as Hp.
    { intros m. induction m as [|m IH]; intros i Hi; [by rewrite Nat.mul_0_r, Nat.add_0_r|].
      replace (i + 2 * S m) with (i + 2 * m + 2) by lia. rewrite (c119 ho _ s Hho) by lia. by apply IH. }
    replace (5 + 2 * n + 1) with (5 + 1 + 2 * n) in E by lia. rewrite !Hp in E by lia. done.
  - intros H. exists 5. intros k Hk. replace k with (5 + (k - 5)) by lia. by apply rewritten_same.
Qed.

(** ** Comments without blank values and without text that ends in a colon *)
Definition solid (c : comment) : Prop :=
  (∀ k v, value_tags c !! k = Some v → trim v ≠ []) ∧ ∀ l k v, l ∈ rest c → conv l = Some (k, v) → trim v ≠ [].
Lemma solid_blanks m : (∀ k v, m !! k = Some v → trim v ≠ []) → blank_lines m = [] ∧ blanks m = [].
Proof.
  intros H. split; apply elem_of_nil_inv.
  - intros l (k & v & Hk & Hv & _)%blank_lines_elem. by eapply H.
  - intros k (v & Hk & Hv)%blanks_elem. by eapply H.
Qed.
Lemma step_texts c : (∀ k v, value_tags c !! k = Some v → trim v ≠ []) → Forall (λ l, conv l = None) (rest (step c)).
Proof.
  intros H. rewrite rest_step. destruct (solid_blanks _ H) as [-> _]. case_decide; [rewrite app_nil_r; apply texts_of_texts|apply List.Forall_nil].
Qed.
Lemma solid_step c : solid c → solid (step c).
Proof.
  intros [H1 H2]. split.
  - intros k v Hv. unfold step in Hv. cbn [value_tags] in Hv. apply puts_in in Hv as [Hv|Hv].
    + apply puts_in in Hv as [Hv|Hv]; [by rewrite lookup_empty in Hv|]. apply elem_of_list_omap in Hv as (l & Hl & Hc). by eapply H2.
    + apply elem_of_list_omap in Hv as ([k' v'] & _ & E). unfold written_pair in E. case_decide; [done|]. injection E as _ <-. by rewrite trim_trim.
  - intros l k v Hl Hc. pose proof (step_texts c H1) as Ht. rewrite Forall_forall in Ht. rewrite (Ht l Hl) in Hc. done.
Qed.
Lemma texts_of_all ls : Forall (λ l, conv l = None) ls → texts_of ls = ls ∧ omap conv ls = [].
Proof.
  intros H. induction H as [|l ls Hl H [IH1 IH2]]; [done|]. unfold texts_of in *. rewrite filter_cons_True by done. rewrite IH1. split; [done|].
  csimpl. by rewrite Hl.
Qed.
Lemma solid_fixed c : solid c → plain c → Forall (λ l, conv l = None) (rest c) → (∀ k v, value_tags c !! k = Some v → trim v = v) → step c = c.
Proof.
  intros [H1 _] (_ & Hk & _) Hr Hv. unfold step. destruct (texts_of_all _ Hr) as [-> ->].
  change (omap written_blank (vals (value_tags c))) with (blank_lines (value_tags c)). destruct (solid_blanks _ H1) as [-> _].
  rewrite app_nil_r, firsts_rest. rewrite puts_plain by done. cbn. rewrite (right_id_L ∅ (∪)).
  assert (kept (value_tags c) = value_tags c) as ->; [|by destruct c].
  apply map_eq. intros k. rewrite kept_lookup. destruct (value_tags c !! k) as [v|] eqn:E; [|done].
  rewrite decide_False by (by eapply H1). f_equal. by eapply Hv.
Qed.
Lemma step_values_trimmed c k v : Forall (λ l, conv l = None) (rest c) → value_tags (step c) !! k = Some v → trim v = v.
Proof.
  intros Hr Hv. unfold step in Hv. cbn [value_tags] in Hv. destruct (texts_of_all _ Hr) as [_ E]. rewrite E in Hv.
  apply puts_in in Hv as [Hv|Hv]; [cbn in Hv; by rewrite lookup_empty in Hv|].
  apply elem_of_list_omap in Hv as ([k' v'] & _ & E'). unfold written_pair in E'. case_decide; [done|]. injection E' as _ <-. apply trim_trim.
Qed.
Lemma solid_two c : ordinary c → solid c → step (step (step c)) = step (step c).
Proof.
  intros Ho Hs. pose proof (solid_step c Hs) as Hs1. pose proof (step_texts c (proj1 Hs)) as Ht1.
  apply solid_fixed.
  - by apply solid_step.
  - by apply plain_two.
  - apply step_texts, Hs1.
  - intros k v. by apply step_values_trimmed.
Qed.
Lemma solid_read c : parsed_shape c → (∀ k v, value_tags c !! k = Some v → trim v ≠ []) →
  (∀ l, l ∈ lines c → last l ≠ Some colon) → solid c.
Proof.
  intros Hs H1 H2. split; [done|]. intros l k v Hl Hc Hv.
  assert (l ∈ lines c) as Hin by (rewrite <- firsts_rest; apply elem_of_app; by right).
  unfold conv in Hc. destruct (value_tag_rx l) as [[k' w]|] eqn:E; [|done]. injection Hc as <- <-.
  apply value_tag_rx_Some in E as (_ & sp & _ & [[-> ->]|(sp' & w' & -> & -> & _ & _ & Hw & _)]).
  - apply (H2 _ Hin). by rewrite app_assoc, last_snoc.
  - cbn [default] in Hv. pose proof (ps_lines c Hs _ Hin) as (_ & Ht & _).
    destruct (exists_last Hw) as (w0 & x & ->).
    change (trim (w0 ++ [x]) = []) in Hv. apply trim_nil_iff in Hv. apply Forall_app in Hv as [_ Hx]. apply (proj1 (Forall_singleton _ _)) in Hx. cbn beta in Hx.
    assert (∃ a, sp ++ k' ++ COLON :: sp' ++ w0 ++ [x] = a ++ [x]) as [a E].
    { exists (sp ++ k' ++ COLON :: sp' ++ w0). by rewrite <- !app_assoc, <- app_comm_cons, <- app_assoc. }
    rewrite E in Ht. rewrite trim_app_ws in Ht by done. destruct (trim_split a) as (u & u' & Ea & _).
    apply (f_equal length) in Ht, Ea. rewrite !app_length in *. simpl in *. lia.
Qed.
Lemma settles_solid ho n s : (∀ i, hash_order_ok (ho i)) → 3 ≤ n →
  let c := from_opt_comment s in
  (∀ k v, value_tags c !! k = Some v → trim k ≠ [] ∧ trim v ≠ []) → (∀ l, l ∈ lines c → last l ≠ Some colon) →
  rewritten ho (n + 1) s = rewritten ho n s.
Proof.
  intros Hho Hn c Hv Hl. assert (ordinary c) as Ho by (split; [apply from_opt_comment_shape|intros k v H; exact (proj1 (Hv k v H))]).
  assert (solid c) as Hs. { apply solid_read; [apply Ho|intros k v H; exact (proj2 (Hv k v H))|done]. }
  replace n with (3 + (n - 3)) by lia. apply rewritten_same; [done|]. change (3 + 1) with 4.
  destruct (steps_read ho 3 s Hho Ho) as [_ E3]. destruct (steps_read ho 2 s Hho Ho) as [_ E2].
  change (rewritten ho 4 s) with (into_opt_comment (ho 3) (from_opt_comment (rewritten ho 3 s))).
  change (rewritten ho 3 s) with (into_opt_comment (ho 2) (from_opt_comment (rewritten ho 2 s))) at 2.
  rewrite E3, E2. change (Nat.iter 3 step (from_opt_comment s)) with (step (step (step c))). change (Nat.iter 2 step (from_opt_comment s)) with (step (step c)).
  rewrite (solid_two c Ho Hs). by apply into_opt_comment_order.
Qed.

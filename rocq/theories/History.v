(** What a journal posting says, given the postings merged into it. *)
From Verif Require Import Base Types CommentModel MergeModel SpecBase BaseProofs MergeSpec MergeClaims
  MergeProofs MergePending MergeApply MergeBuild MergeClosed MergeLemmas MergePlaces MergeLaws MergeLaws2 MergeLaws3 MergeReplay
  PropsMergeProofs HistoryClaims.
From Coq Require Import Lia.
Local Open Scope nat_scope.

(** * Composition *)
Lemma new_lines_ext s s' l : (∀ x, x ∈ s ↔ x ∈ s') → new_lines s l = new_lines s' l.
Proof.
  revert s s'. induction l as [|x l IH]; intros s s' H; [done|]. cbn [new_lines].
  destruct (decide (x ∈ s)) as [Hx|Hx], (decide (x ∈ s')) as [Hx'|Hx']; [|exfalso; by apply Hx', H|exfalso; by apply Hx, H|].
  - by apply IH.
  - f_equal. apply IH. intros y. rewrite !elem_of_cons, H. done.
Qed.
Lemma new_lines_app s l k : new_lines s (l ++ k) = new_lines s l ++ new_lines (new_lines s l ++ s) k.
Proof.
  revert s. induction l as [|x l IH]; intros s; [done|]. cbn [app new_lines].
  destruct (decide (x ∈ s)); [apply IH|]. cbn [app]. f_equal. rewrite IH. f_equal.
  apply new_lines_ext. intros y. repeat (rewrite elem_of_cons || rewrite elem_of_app). tauto.
Qed.
Lemma merge_lines_new a b : merge_lines a b = a ++ new_lines a b.
Proof.
  revert a. induction b as [|x b IH]; intros a; cbn [new_lines]; [by rewrite app_nil_r|].
  change (merge_lines a (x :: b)) with (merge_lines (if existsb (λ y, str_eqb y x) a then a else a ++ [x]) b).
  rewrite IH. assert (existsb (λ y, str_eqb y x) a = true ↔ x ∈ a) as E.
  { rewrite existsb_exists. split.
    - intros (y & Hy & E). apply elem_of_list_In in Hy. unfold str_eqb in E. apply bool_decide_eq_true in E. by subst.
    - intros Hx. exists x. split; [by apply elem_of_list_In|]. unfold str_eqb. by apply bool_decide_eq_true. }
  destruct (decide (x ∈ a)) as [Hx|Hx].
  - by rewrite (proj2 E Hx).
  - assert (existsb (λ y, str_eqb y x) a = false) as -> by (apply not_true_is_false; by rewrite E). rewrite <- app_assoc. cbn [app]. do 2 f_equal.
    apply new_lines_ext. intros y. rewrite elem_of_app, elem_of_list_singleton, elem_of_cons. tauto.
Qed.

Lemma merge_composed ps x p : composed ps x → composed (ps ++ [p]) (merge_posting x p).
Proof.
  intros H. destruct (c21_rules x p) as (R1 & R2 & R3 & R4 & R5 & R6 & R7 & R8 & R9 & R10 & R11 & R12 & _).
  destruct (cp_first _ _ H) as (p0 & rest & -> & A1 & A2 & A3 & A4 & A5).
  constructor.
  - exists p0, (rest ++ [p]). split_and!; [done|by rewrite R1|by rewrite R2| | |].
    + rewrite <- A3. apply (merge_posting_refines x p).
    + rewrite merge_posting_lines, merge_lines_new, A4, bind_app, new_lines_app. cbn [mbind list_bind].
      rewrite <- (assoc_L (++)), app_nil_r. do 2 f_equal. apply new_lines_ext. intros y. rewrite !elem_of_app. tauto.
    + intros Hall. apply Forall_app in Hall as [Hu Hp]. apply (proj1 (Forall_singleton _ _)) in Hp.
      rewrite R9 by by right. by apply A5.
  - intros before q after E Hb Hq. destruct (decide (after = [])) as [->|Hne].
    + assert (p0 :: rest = before ∧ p = q) as [<- ->].
      { change (p0 :: rest ++ [p]) with ((p0 :: rest) ++ [p]) in E. by apply app_inj_tail in E. }
      apply R8; [by apply (cp_unknown _ _ H)|done].
    + destruct (exists_last Hne) as (k & z & ->).
      assert (p0 :: rest = before ++ q :: k) as E'.
      { change (p0 :: rest ++ [p]) with ((p0 :: rest) ++ [p]) in E.
        rewrite app_comm_cons, app_assoc in E. by apply app_inj_tail in E as [? _]. }
      rewrite R9; [by eapply cp_account|]. left. rewrite (cp_unknown _ _ H), E'. intros [_ Hc]%Forall_app.
      by apply Forall_cons in Hc as [? _].
  - rewrite R10, (cp_unknown _ _ H), Forall_app, Forall_singleton. done.
  - rewrite Exists_app, <- (cp_cleared _ _ H), Exists_cons, Exists_nil.
    destruct (p_status (pi_raw x)) as [[]|].
    + rewrite R4 by done. destruct (decide _); naive_solver.
    + rewrite R5 by done. naive_solver.
    + rewrite R3 by done. naive_solver.
  - rewrite Forall_app, <- (cp_no_status _ _ H), Forall_singleton.
    destruct (p_status (pi_raw x)) as [[]|].
    + rewrite R4 by done. destruct (decide _); naive_solver.
    + rewrite R5 by done. naive_solver.
    + rewrite R3 by done. naive_solver.
  - intros b. destruct (p_balance (pi_raw x)) as [b0|] eqn:Eb.
    + rewrite R7 by done.
      destruct (proj1 (cp_balance _ _ H b0) Eb) as (bf & q & af & Eps & Hbf & Hq). split.
      * intros [= <-]. exists bf, q, (af ++ [p]). split_and!; [|done..]. rewrite Eps. by rewrite <- (assoc_L (++)).
      * intros (bf' & q' & af' & E & Hbf' & Hq'). rewrite Eps, <- (assoc_L (++)) in E. cbn [app] in E.
        assert (length bf = length bf') as El.
        { destruct (lt_eq_lt_dec (length bf) (length bf')) as [[Hlt|?]|Hlt]; [|done|].
          - assert (bf' !! length bf = Some q) as Hl.
            { assert ((bf ++ q :: af ++ [p]) !! length bf = Some q) as Hl0 by by rewrite list_lookup_middle.
              rewrite E, lookup_app_l in Hl0 by done. done. }
            rewrite Forall_forall in Hbf'. specialize (Hbf' q (elem_of_list_lookup_2 _ _ _ Hl)). cbn beta in Hbf'. congruence.
          - assert (bf !! length bf' = Some q') as Hl.
            { assert ((bf' ++ q' :: af') !! length bf' = Some q') as Hl0 by by rewrite list_lookup_middle.
              rewrite <- E, lookup_app_l in Hl0 by done. done. }
            rewrite Forall_forall in Hbf. specialize (Hbf q' (elem_of_list_lookup_2 _ _ _ Hl)). cbn beta in Hbf. congruence. }
        apply app_inj_1 in E as [-> E]; [|done]. congruence.
    + rewrite R6 by done. assert (Forall (λ p, p_balance (pi_raw p) = None) (p0 :: rest)) as Hall.
      { apply Forall_forall. intros q Hq. destruct (p_balance (pi_raw q)) as [b'|] eqn:Eq; [|done]. exfalso.
        assert (∃ b, p_balance (pi_raw x) = Some b) as [b1 Hb1]; [|congruence].
        clear -H Hq Eq. setoid_rewrite (cp_balance _ _ H). revert Hq. generalize (p0 :: rest). intros l Hq.
        induction l as [|z l IH]; [by apply elem_of_nil in Hq|]. destruct (p_balance (pi_raw z)) as [b|] eqn:Ez.
        - exists b, [], z, l. split_and!; [done|constructor|done].
        - apply elem_of_cons in Hq as [<-|Hq]; [congruence|]. destruct (IH Hq) as (b & bf & w & af & -> & Hf & Hw).
          exists b, (z :: bf), w, af. split_and!; [done|by constructor|done]. }
      split.
      * intros Hp. exists (p0 :: rest), p, []. done.
      * intros (bf & q & af & E & Hbf & Hq). destruct (decide (af = [])) as [->|Hne].
        { change (p0 :: rest ++ [p]) with ((p0 :: rest) ++ [p]) in E. apply app_inj_tail in E as [_ <-]. done. }
        destruct (exists_last Hne) as (k & z & ->).
        change (p0 :: rest ++ [p]) with ((p0 :: rest) ++ [p]) in E.
        rewrite app_comm_cons, app_assoc in E. apply app_inj_tail in E as [E _].
        rewrite E in Hall. apply Forall_app in Hall as [_ Hall]. apply Forall_cons in Hall as [Hall _].
        cbn beta in Hall. congruence.
  - intros t Ht. rewrite R11 by done. rewrite (cp_tags _ _ H) by done. rewrite Exists_app, (Exists_cons _ p []), Exists_nil. tauto.
  - intros k v. rewrite R12. rewrite (cp_values _ _ H). split.
    + intros [Hv|[Hn (bf & q & af & E & Hq & Haf)]].
      * exists (p0 :: rest), p, []. done.
      * exists bf, q, (af ++ [p]). rewrite E, <- (assoc_L (++)). split_and!; [done|done|].
        apply Forall_app. split; [done|]. by apply Forall_singleton.
    + intros (bf & q & af & E & Hq & Haf). destruct (decide (af = [])) as [->|Hne].
      { change (p0 :: rest ++ [p]) with ((p0 :: rest) ++ [p]) in E. apply app_inj_tail in E as [_ ->]. by left. }
      destruct (exists_last Hne) as (l & z & ->).
      change (p0 :: rest ++ [p]) with ((p0 :: rest) ++ [p]) in E.
      rewrite app_comm_cons, app_assoc in E. apply app_inj_tail in E as [E ->].
      apply Forall_app in Haf as [Haf Hz]. apply (proj1 (Forall_singleton _ _)) in Hz. right. split; [done|]. eauto 6.
Qed.
Lemma single_composed p : composed [p] p.
Proof.
  assert (∀ (before : list posting_internal) q after, [p] = before ++ q :: after → before = [] ∧ q = p ∧ after = []) as Hs.
  { intros [|z [|? ?]] q after E; cbn [app] in E; simplify_eq; done. }
  constructor.
  - exists p, []. split_and!; try done. by rewrite app_nil_r.
  - intros bf q af (-> & -> & ->)%Hs _ _. done.
  - by rewrite Forall_singleton.
  - rewrite Exists_cons, Exists_nil. tauto.
  - by rewrite Forall_singleton.
  - intros b. split.
    + intros Hb. exists [], p, []. split_and!; [done|constructor|done].
    + intros (bf & q & af & (-> & -> & ->)%Hs & _ & Hq). done.
  - intros t _. rewrite Exists_cons, Exists_nil. tauto.
  - intros k v. split.
    + intros Hb. exists [], p, []. split_and!; [done|done|constructor].
    + intros (bf & q & af & (-> & -> & ->)%Hs & Hq & _). done.
Qed.
Lemma fold_composed p rest : composed (p :: rest) (foldl merge_posting p rest).
Proof.
  induction rest as [|q rest IH] using rev_ind; [apply single_composed|].
  rewrite foldl_app. cbn [foldl]. change (p :: rest ++ [q]) with ((p :: rest) ++ [q]). by apply merge_composed.
Qed.
#[local] Instance unknown_account_dec p : Decision (unknown_account p).
Proof. unfold unknown_account, has_tag. apply _. Defined.
Lemma composed_unique ps q q' : composed ps q → composed ps q' → q = q'.
Proof.
  intros H H'.
  destruct (cp_first _ _ H) as (p0 & rest & -> & A1 & A2 & A3 & A4 & A5).
  destruct (cp_first _ _ H') as (p0' & rest' & E' & B1 & B2 & B3 & B4 & B5). injection E' as <- <-.
  assert (p_account (pi_raw q) = p_account (pi_raw q')) as C1.
  { destruct (decide (Forall unknown_account (p0 :: rest))) as [Hu|Hu].
    - rewrite A5, B5 by done. done.
    - assert (∃ bf p af, p0 :: rest = bf ++ p :: af ∧ Forall unknown_account bf ∧ ¬ unknown_account p) as (bf & p & af & E & Hb & Hp).
      { clear -Hu. revert Hu. generalize (p0 :: rest). intros l. induction l as [|z l IH]; intros Hu; [by destruct Hu|].
        destruct (decide (unknown_account z)) as [Hz|Hz].
        - destruct IH as (bf & p & af & -> & Hf & Hp).
          { intros Hl. apply Hu. by constructor. }
          exists (z :: bf), p, af. split_and!; [done|by constructor|done].
        - exists [], z, l. split_and!; [done|constructor|done]. }
      rewrite (cp_account _ _ H bf p af), (cp_account _ _ H' bf p af) by done. done. }
  assert (p_status (pi_raw q) = p_status (pi_raw q')) as C2.
  { pose proof (cp_cleared _ _ H) as S1. pose proof (cp_cleared _ _ H') as S2. rewrite <- S2 in S1. clear S2.
    pose proof (cp_no_status _ _ H) as S2. pose proof (cp_no_status _ _ H') as S3. rewrite <- S3 in S2. clear S3.
    destruct (p_status (pi_raw q)) as [[]|], (p_status (pi_raw q')) as [[]|]; naive_solver. }
  assert (p_balance (pi_raw q) = p_balance (pi_raw q')) as C3.
  { apply option_eq. intros b. rewrite (cp_balance _ _ H), (cp_balance _ _ H'). done. }
  assert (tags (pi_comment q) = tags (pi_comment q')) as C4.
  { apply set_eq. intros t. destruct (decide (t = s2l "unknown-account")) as [->|Ht].
    - change (unknown_account q ↔ unknown_account q'). rewrite (cp_unknown _ _ H), (cp_unknown _ _ H'). done.
    - change (has_tag q t ↔ has_tag q' t). rewrite (cp_tags _ _ H t Ht), (cp_tags _ _ H' t Ht). done. }
  assert (value_tags (pi_comment q) = value_tags (pi_comment q')) as C5.
  { apply map_eq. intros k. apply option_eq. intros v. rewrite (cp_values _ _ H), (cp_values _ _ H'). done. }
  destruct q as [[a b c d e f] [l t v]], q' as [[a' b' c' d' e' f'] [l' t' v']].
  cbn [pi_raw pi_comment p_account p_amount p_reality p_balance p_status p_comment lines tags value_tags] in *. congruence.
Qed.

(** * Places of the postings of one set *)
Lemma elem_of_numbered s x y p : (x, y, p) ∈ numbered s ↔ ∃ tp, s !! x = Some tp ∧ tp_posts tp !! y = Some p.
Proof.
  unfold numbered. rewrite elem_of_list_join. split.
  - intros (l & Hp & Hl). apply elem_of_lookup_imap in Hl as (x' & tp & -> & Hx).
    apply elem_of_lookup_imap in Hp as (y' & p' & E & Hy). simplify_eq. eauto.
  - intros (tp & Hx & Hy). exists (imap (λ y p, (x, y, p)) (tp_posts tp)). split.
    + apply (elem_of_list_lookup_2 _ y). by rewrite list_lookup_imap, Hy.
    + apply (elem_of_list_lookup_2 _ x). by rewrite list_lookup_imap, Hx.
Qed.
Lemma NoDup_numbered s : NoDup (numbered s).
Proof.
  unfold numbered.
  assert (∀ n, NoDup (mjoin (imap (λ x tp, imap (λ y p, ((n + x)%nat, y, p)) (tp_posts tp)) s))) as H; [|exact (H 0)].
  induction s as [|tp s IH]; intros n; [constructor|]. cbn [imap]. 
  change (mjoin (?a :: ?l)) with (a ++ mjoin l). apply NoDup_app. split_and!.
  - apply (NoDup_fmap_1 (λ e, e.1.2)). 
    assert ((λ e : nat * nat * posting_internal, e.1.2) <$> imap (λ y p, (n + 0, y, p)) (tp_posts tp) = seq 0 (length (tp_posts tp))) as ->; [|apply NoDup_seq].
    rewrite fmap_imap. apply list_eq. intros i. rewrite list_lookup_imap. destruct (tp_posts tp !! i) as [p|] eqn:E.
    + rewrite lookup_seq_lt by by eapply lookup_lt_Some. done.
    + rewrite lookup_seq_ge by by apply lookup_ge_None. done.
  - intros [[x y] p] Hin Hin'. apply elem_of_lookup_imap in Hin as (y' & p' & E & _).
    apply elem_of_list_join in Hin' as (l & Hl & Hl'). apply elem_of_lookup_imap in Hl' as (x' & tp' & -> & _).
    apply elem_of_lookup_imap in Hl as (y'' & p'' & E' & _). simplify_eq. lia.
  - specialize (IH (S n)). erewrite imap_ext; [exact IH|]. intros x tp' _. cbn beta. apply imap_ext. intros y p _.
    by replace (n + S x) with (S n + x) by lia.
Qed.

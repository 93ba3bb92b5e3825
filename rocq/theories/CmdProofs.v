(** Proofs about files, reading, writing, ledgers and sources. *)
From Verif Require Import Base Types CommentModel MergeModel CmdModel SpecBase BaseProofs StrProofs CmdClaims.
Local Open Scope nat_scope.

(** ** Events *)
Lemma steps_app w a b : steps w (a ++ b) = steps (steps w a) b.
Proof. unfold steps. by rewrite foldl_app. Qed.

(** Events that only consume stdin. *)
Definition quiet (es : list event) : Prop := Forall (λ e, e = EvStdin) es.
Lemma quiet_untouched w es : quiet es → untouched w (steps w es).
Proof.
  intros H. revert w. induction H as [|e es -> H IH]; intros w; [done|].
  destruct (IH (step w EvStdin)) as (H1 & H2 & H3). done.
Qed.
Lemma quiet_app a b : quiet a → quiet b → quiet (a ++ b).
Proof. intros; by apply Forall_app. Qed.
Lemma quiet_crash w es w' : quiet es → crash_world w es w' → untouched w w'.
Proof.
  intros H (a & b & -> & ->). apply Forall_app in H as [H _]. by apply quiet_untouched.
Qed.
Lemma crash_app w a b w' : crash_world w (a ++ b) w' → crash_world w a w' ∨ crash_world (steps w a) b w'.
Proof.
  intros (x & y & E & ->). apply app_eq_inv in E as [(l & -> & ->)|(l & -> & ->)].
  - left. by exists x, l.
  - right. exists l, y. split; [done|]. by rewrite steps_app.
Qed.
Lemma crash_self w es : crash_world w es (steps w es).
Proof. exists es, []. by rewrite app_nil_r. Qed.

(** Writing text. *)
Lemma steps_put_path w p text old :
  w_files w !! p = Some old →
  steps w (put (Path p) <$> text) = World (<[p := old ++ text]> (w_files w)) (w_dirs w) (w_stdin w) (w_stdout w).
Proof.
  revert w old. induction text as [|c text IH]; intros w old H.
  - rewrite app_nil_r. destruct w; simpl in *. by rewrite insert_id.
  - rewrite fmap_cons. change (steps w (put (Path p) c :: (put (Path p) <$> text)))
      with (steps (step w (EvPut p c)) (put (Path p) <$> text)).
    rewrite (IH _ (old ++ [c])); simpl.
    + rewrite insert_insert, <- app_assoc. done.
    + by rewrite H, lookup_insert.
Qed.
Lemma steps_put_stdio w text :
  steps w (put Stdio <$> text) = World (w_files w) (w_dirs w) (w_stdin w) (w_stdout w ++ text).
Proof.
  revert w. induction text as [|c text IH]; intros w.
  - rewrite app_nil_r. by destruct w.
  - rewrite fmap_cons. change (steps w (put Stdio c :: (put Stdio <$> text)))
      with (steps (step w (EvOut c)) (put Stdio <$> text)).
    rewrite IH. simpl. by rewrite <- app_assoc.
Qed.

(** The world after [text] was written to [f]. *)
Definition written (w : world) (f : filespec) (text : str) : world :=
  match f with
  | Path p => World (<[p := text]> (w_files w)) (w_dirs w) (w_stdin w) (w_stdout w)
  | Stdio => World (w_files w) (w_dirs w) (w_stdin w) (w_stdout w ++ text)
  end.
Lemma written_holds w f text : holds w (written w f text) f text.
Proof. destruct f; simpl; [done|]. by rewrite lookup_insert. Qed.
Lemma written_other w f text p : f ≠ Path p → same_file w (written w f text) p.
Proof. destruct f; intros H; [done|]. unfold same_file. simpl. rewrite lookup_insert_ne; [done|congruence]. Qed.

(** A crash while [text] is being written. *)
Lemma crash_put w f text w' old :
  (∀ p, f = Path p → w_files w !! p = Some old) →
  crash_world w (put f <$> text) w' →
  ∃ part rest, text = part ++ rest ∧ w' = match f with Path p => written w f (old ++ part) | Stdio => written w f part end.
Proof.
  intros Hf (a & b & E & ->). apply fmap_app_inv in E as (t1 & t2 & E1 & E2 & ->).
  exists t1, t2. split; [done|]. subst a. destruct f as [|p]; [apply steps_put_stdio|].
  by apply steps_put_path, Hf.
Qed.

(** What [write_file] does: everything, or a beginning. *)
Lemma write_file_spec E f text w :
  ∃ es r, write_file E f text w = (es, r) ∧
   ((r = Ok tt ∧ steps w es = written w f text) ∨ (r = Err EIo ∧ ¬ writable E f)) ∧
   (∀ w', crash_world w es w' → w' = w ∨ ∃ part rest, text = part ++ rest ∧ w' = written w f part).
Proof.
  unfold write_file, io_bind, writer. destruct f as [|p].
  - unfold write_all. destruct (f_write E Stdio) as [n|] eqn:Ew.
    + destruct (n <? length text) eqn:En; eexists _, _; (split; [done|split]).
      * right. split; [done|]. intros [? _]. congruence.
      * intros w' Hc. apply (crash_put w Stdio _ w' []) in Hc; [|done].
        destruct Hc as (a & b & E1 & ->). right. exists a, (b ++ drop n text).
        split; [|done]. rewrite app_assoc, <- E1. by rewrite take_drop.
      * left. split; [done|]. apply steps_put_stdio.
      * intros w' Hc. apply (crash_put w Stdio _ w' []) in Hc; [|done].
        destruct Hc as (a & b & E1 & ->). right. by exists a, b.
    + eexists _, _; (split; [done|split]).
      * left. split; [done|]. apply steps_put_stdio.
      * intros w' Hc. apply (crash_put w Stdio _ w' []) in Hc; [|done].
        destruct Hc as (a & b & E1 & ->). right. by exists a, b.
  - destruct (f_create E p) eqn:Ec.
    + eexists _, _; (split; [done|split]).
      * right. split; [done|]. intros [_ ?]. congruence.
      * intros w' (a & b & E1 & ->). left. symmetry in E1. by apply app_nil in E1 as [-> ->].
    + set (w1 := steps w [EvCreate p]).
      assert (Hw1 : w_files w1 !! p = Some []) by (simpl; by rewrite lookup_insert).
      assert (Hwr : ∀ t, written w1 (Path p) t = written w (Path p) t).
      { intros t. unfold written. simpl. by rewrite insert_insert. }
      assert (Hcr : ∀ t tl w', text = t ++ tl → crash_world w ([EvCreate p] ++ (put (Path p) <$> t)) w' →
        w' = w ∨ ∃ part rest, text = part ++ rest ∧ w' = written w (Path p) part).
      { intros t tl w' Et (a & b & E1 & ->). destruct a as [|e a]; [by left|right].
        simpl in E1. injection E1 as <- E1.
        destruct (crash_put w1 (Path p) t (steps w1 a) []) as (x & y & -> & Hs).
        { by intros q [= <-]. }
        { by exists a, b. }
        exists x, (y ++ tl). split; [by rewrite app_assoc|]. rewrite Hwr in Hs. exact Hs. }
      assert (Hfin : ∀ t, steps w ([EvCreate p] ++ (put (Path p) <$> t)) = written w (Path p) t).
      { intros t. rewrite steps_app. fold w1. rewrite (steps_put_path w1 p t []) by done.
        unfold written. simpl. by rewrite insert_insert. }
      unfold write_all. fold w1. destruct (f_write E (Path p)) as [n|] eqn:Ew.
      * destruct (n <? length text) eqn:En; eexists _, _; (split; [done|split]).
        -- right. split; [done|]. intros [? _]. congruence.
        -- intros w'. apply Hcr with (drop n text). by rewrite take_drop.
        -- left. split; [done|]. apply Hfin.
        -- intros w'. apply Hcr with []. by rewrite app_nil_r.
      * eexists _, _; (split; [done|split]).
        -- left. split; [done|]. apply Hfin.
        -- intros w'. apply Hcr with []. by rewrite app_nil_r.
Qed.
Lemma write_file_ok E f text w : writable E f → ∃ es, write_file E f text w = (es, Ok tt).
Proof.
  intros H. destruct (write_file_spec E f text w) as (es & r & -> & [[-> _]|[_ ?]] & _); [by exists es|done].
Qed.

(** ** Reading *)
Lemma read_ledger_spec E f w :
  ∃ es r, read_ledger E f w = (es, r) ∧ quiet es ∧
    ((∃ l, r = Ok l ∧ reads E w f l (steps w es)) ∨ ((∃ e, r = Err e) ∧ ∀ l w', ¬ reads E w f l w')).
Proof.
  unfold read_ledger, read_file, io_bind, io_of. destruct (f_read E f) eqn:Er.
  { eexists _, _. split; [done|]. split; [constructor|]. right. split; [by eexists|].
    intros l w' H. inversion H; subst; congruence. }
  destruct f as [|p].
  - destruct (e_parse E (w_stdin w)) as [l|] eqn:Ep.
    + exists [EvStdin], (Ok l). split; [done|]. split; [by repeat constructor|]. left. exists l. split; [done|].
      by constructor.
    + exists [EvStdin], (Err EParse). split; [done|]. split; [by repeat constructor|]. right. split; [by eexists|].
      intros l w' H. inversion H; subst; congruence.
  - destruct (w_files w !! p) as [text|] eqn:Ef.
    + destruct (e_parse E text) as [l|] eqn:Ep.
      * exists [], (Ok l). split; [done|]. split; [by repeat constructor|]. left. exists l. split; [done|].
        by econstructor.
      * exists [], (Err EParse). split; [done|]. split; [by repeat constructor|]. right. split; [by eexists|].
        intros l w' H. inversion H; subst; congruence.
    + exists [], (Err EIo). split; [done|]. split; [by repeat constructor|]. right. split; [by eexists|].
      intros l w' H. inversion H; subst; congruence.
Qed.
Lemma reads_fun E w f l w1 l' w1' : reads E w f l w1 → reads E w f l' w1' → l' = l ∧ w1' = w1.
Proof. intros H H'. inversion H; subst; inversion H'; subst; split; congruence. Qed.

(** ** Ledgers *)
Lemma from_ledger_ok l : supported l → from_ledger l = Ok (transaction_postings_of <$> ledger_trns l).
Proof.
  unfold supported. induction l as [|i l IH]; intros H; [done|]. rewrite not_elem_of_cons in H. destruct H as [Hi H].
  destruct i; simpl; [by apply IH| |done]. by rewrite IH.
Qed.
Lemma from_ledger_err l : ¬ supported l → from_ledger l = Err EUnhandledItem.
Proof.
  unfold supported. induction l as [|i l IH]; intros H.
  - destruct H. by intros ?%elem_of_nil.
  - destruct i; simpl; [| |done].
    + apply IH. intros H'. apply H. by rewrite not_elem_of_cons.
    + rewrite IH; [done|]. intros H'. apply H. by rewrite not_elem_of_cons.
Qed.
#[export] Instance supported_dec l : Decision (supported l).
Proof. unfold supported. apply _. Defined.
Lemma from_ledger_iff l tps :
  from_ledger l = Ok tps ↔ supported l ∧ tps = transaction_postings_of <$> ledger_trns l.
Proof.
  destruct (decide (supported l)) as [H|H].
  - rewrite from_ledger_ok by done. split; [by intros [= <-]|by intros [_ ->]].
  - rewrite from_ledger_err by done. split; [done|]. by intros [? _].
Qed.

Lemma intersperse_length {A} (s : A) l : length (intersperse s l) = 2 * length l - 1.
Proof.
  induction l as [|x l IH]; [done|]. destruct l as [|y l]; [done|].
  change (length (intersperse s (x :: y :: l))) with (S (S (length (intersperse s (y :: l))))).
  rewrite IH. simpl. lia.
Qed.
Lemma intersperse_even {A} (s : A) l i x : l !! i = Some x → intersperse s l !! (2 * i) = Some x.
Proof.
  revert i. induction l as [|y l IH]; intros i H; [done|]. destruct l as [|z l].
  - destruct i as [|i]; [done|]. by destruct i.
  - destruct i as [|i]; [done|].
    replace (2 * S i) with (S (S (2 * i))) by lia.
    change (intersperse s (y :: z :: l)) with (y :: s :: intersperse s (z :: l)). simpl. by apply IH.
Qed.
Lemma intersperse_odd {A} (s : A) l i : 2 * i + 1 < 2 * length l - 1 → intersperse s l !! (2 * i + 1) = Some s.
Proof.
  revert i. induction l as [|y l IH]; intros i H; [simpl in H; lia|]. destruct l as [|z l]; [simpl in H; lia|].
  change (intersperse s (y :: z :: l)) with (y :: s :: intersperse s (z :: l)).
  destruct i as [|i]; [done|]. replace (2 * S i + 1) with (S (S (2 * i + 1))) by lia. simpl lookup.
  apply IH. simpl in *. lia.
Qed.
Lemma ledger_alternating ts : alternating (ledger_from_transactions ts) ts.
Proof.
  unfold ledger_from_transactions. split_and!.
  - by rewrite intersperse_length, fmap_length.
  - intros i t H. apply intersperse_even. by rewrite list_lookup_fmap, H.
  - intros i. rewrite intersperse_length, fmap_length. intros H. apply intersperse_odd. by rewrite fmap_length.
Qed.
Lemma ledger_trns_of ts : ledger_trns (ledger_from_transactions ts) = ts.
Proof.
  unfold ledger_from_transactions. induction ts as [|t ts IH]; [done|]. destruct ts as [|u ts]; [done|].
  rewrite !fmap_cons in *. change (intersperse EmptyLine (ItemTransaction t :: ItemTransaction u :: (ItemTransaction <$> ts)))
    with (ItemTransaction t :: EmptyLine :: intersperse EmptyLine (ItemTransaction u :: (ItemTransaction <$> ts))).
  unfold ledger_trns in *. simpl. f_equal. exact IH.
Qed.
Lemma ledger_supported ts : supported (ledger_from_transactions ts).
Proof.
  unfold supported, ledger_from_transactions. induction ts as [|t ts IH]; [by intros ?%elem_of_nil|].
  destruct ts as [|u ts]; [simpl; by intros ?%elem_of_list_singleton|].
  rewrite !fmap_cons in *. change (intersperse EmptyLine (ItemTransaction t :: ItemTransaction u :: (ItemTransaction <$> ts)))
    with (ItemTransaction t :: EmptyLine :: intersperse EmptyLine (ItemTransaction u :: (ItemTransaction <$> ts))).
  rewrite !not_elem_of_cons. auto.
Qed.

(** ** Sources *)
Lemma str_leb_lt a b : str_leb a b = true → a ≠ b → str_lt a b.
Proof.
  revert b. induction a as [|x a IH]; intros [|y b]; simpl; intros H Hne; try done.
  - exists []. left. split; [done|]. by exists y, b.
  - apply orb_true_iff in H as [H|H].
    + apply N.ltb_lt in H. exists []. right. by exists x, a, y, b.
    + apply andb_true_iff in H as [->%N.eqb_eq H]. destruct (IH b H) as (p & Hp); [congruence|].
      exists (y :: p). destruct Hp as [[-> (z & b' & ->)]|(u & a' & z & b' & -> & -> & ?)].
      * left. split; [done|]. by exists z, b'.
      * right. by exists u, a', z, b'.
Qed.

Lemma annotate_is file tp : annotate file tp = (source_of file tp, sourced file tp).
Proof.
  unfold annotate, source_of, sourced, source_of, source_tag, map_trn_comment, set_value_tags.
  change TRANSACTION_SOURCE_KEY with (s2l "source-file").
  destruct (value_tags _ !! _); done.
Qed.
Lemma group_by_source_lookup file tps s :
  group_by_source file tps !! s =
    opt_list (sourced file <$> filter (λ tp, source_of file tp = s) tps).
Proof.
  unfold group_by_source. induction tps as [|tp tps IH] using rev_ind; [done|].
  rewrite foldl_app. cbn [foldl]. rewrite annotate_is. unfold push_entry in *. rewrite filter_app, fmap_app.
  destruct (decide (source_of file tp = s)) as [Hs|Hs].
  - rewrite Hs, lookup_insert, IH. rewrite (filter_cons_True _ tp []) by done.
    change (sourced file <$> tp :: filter (λ tp, source_of file tp = s) []) with [sourced file tp].
    destruct (sourced file <$> filter _ tps); done.
  - rewrite lookup_insert_ne by done. rewrite IH. rewrite (filter_cons_False _ tp []) by done.
    change (sourced file <$> filter (λ tp, source_of file tp = s) []) with (@nil transaction_postings).
    by rewrite app_nil_r.
Qed.
Lemma opt_list_Some {A} (l k : list A) : opt_list l = Some k ↔ k = l ∧ l ≠ [].
Proof. destruct l; simpl; naive_solver. Qed.

Lemma StronglySorted_lt {A} (l : list (str * A)) :
  StronglySorted (λ a b, str_leb a.1 b.1 = true) l → NoDup l.*1 → StronglySorted str_lt l.*1.
Proof.
  induction 1 as [|x l Hl IH Hx]; csimpl; intros Hnd; [constructor|].
  apply NoDup_cons in Hnd as [Hn Hnd]. constructor; [by apply IH|].
  apply Forall_fmap. rewrite Forall_forall in *. intros y Hy. simpl.
  apply str_leb_lt; [by apply Hx|]. intros E. apply Hn. rewrite E. apply elem_of_list_fmap. by exists y.
Qed.

Lemma sorted_groups_spec ho file tps :
  hash_order_ok ho → by_source file tps (sorted_groups ho (group_by_source file tps)).
Proof.
  intros (_ & _ & Hho). unfold sorted_groups. set (m := group_by_source file tps).
  set (l := stable_sort (λ a b, str_leb a.1 b.1) (ho_strs ho (list transaction_postings) m)).
  assert (Hp : l ≡ₚ map_to_list m).
  { unfold l. rewrite stable_sort_perm. apply Hho. }
  assert (Hin : ∀ s g, (s, g) ∈ l ↔ g = sourced file <$> filter (λ tp, source_of file tp = s) tps ∧ g ≠ []).
  { intros s g. rewrite Hp, elem_of_map_to_list. unfold m. rewrite group_by_source_lookup, opt_list_Some. naive_solver. }
  exists l.*1. split_and!.
  - apply StronglySorted_lt.
    + apply (stable_sort_sorted (λ a b : str * list transaction_postings, str_leb a.1 b.1)).
      * intros a b. apply str_leb_total.
      * intros a b c. apply str_leb_trans.
    + rewrite Hp. apply NoDup_fst_map_to_list.
  - intros s. rewrite elem_of_list_fmap. split.
    + intros ([s' g] & -> & H). apply Hin in H as [-> H].
      destruct (filter (λ tp, source_of file tp = s') tps) as [|tp k] eqn:Ef; [done|].
      exists tp. simpl. assert (Hel : tp ∈ filter (λ tp, source_of file tp = s') tps) by (rewrite Ef; by left).
      apply elem_of_list_filter in Hel as [??]. done.
    + intros (tp & Htp & Hs). eexists (s, _). split; [done|]. apply Hin. split; [done|].
      intros E%fmap_nil_inv. assert (Hel : tp ∈ filter (λ tp, source_of file tp = s) tps)
        by (by apply elem_of_list_filter). rewrite E in Hel. by apply elem_of_nil in Hel.
  - rewrite <- list_fmap_compose. apply list_fmap_ext. intros i [s g] H%elem_of_list_lookup_2.
    apply Hin in H as [-> _]. done.
Qed.

Lemma str_lt_irrefl a : ¬ str_lt a a.
Proof.
  intros (p & [[-> (y & b & E)]|(x & a' & y & b' & E & E' & Hlt)]).
  - apply (f_equal length) in E. rewrite app_length in E. simpl in E. lia.
  - rewrite E in E'. apply app_inv_head in E'. injection E' as -> _. lia.
Qed.
Lemma str_lt_leb a b : str_lt a b → str_leb a b = true.
Proof.
  intros (p & H). revert a b H. induction p as [|z p IH]; intros a b H.
  - destruct H as [[-> (y & b' & ->)]|(x & a' & y & b' & -> & -> & Hlt)]; [done|]. simpl.
    apply orb_true_iff. left. by apply N.ltb_lt.
  - destruct H as [[-> (y & b' & ->)]|(x & a' & y & b' & -> & -> & Hlt)]; simpl;
      rewrite N.eqb_refl; simpl; apply orb_true_iff; right; apply IH; [left|right]; eauto 10.
Qed.
Lemma sorted_lt_leb l : StronglySorted str_lt l → StronglySorted (λ a b, str_leb a b = true) l.
Proof.
  induction 1 as [|x l Hl IH Hx]; constructor; [done|]. eapply Forall_impl; [exact Hx|]. intros; by apply str_lt_leb.
Qed.
Lemma by_source_fun file tps s1 s2 : by_source file tps s1 → by_source file tps s2 → s1 = s2.
Proof.
  intros (l1 & H1 & Hi1 & ->) (l2 & H2 & Hi2 & ->). f_equal.
  apply (sorted_perm_unique str_leb).
  - apply str_leb_antisym.
  - by apply sorted_lt_leb.
  - by apply sorted_lt_leb.
  - assert (∀ l, StronglySorted str_lt l → NoDup l) as Hnd.
    { induction 1 as [|x l Hl IH Hx]; constructor; [|done]. intros Hin. rewrite Forall_forall in Hx.
      by apply (str_lt_irrefl x), Hx. }
    apply NoDup_Permutation; [by apply Hnd|by apply Hnd|]. intros s. by rewrite Hi1, Hi2.
Qed.

Lemma strip_unsourced tps : Forall2 unsourced tps (strip_sources tps).
Proof.
  unfold strip_sources. induction tps as [|tp tps IH]; csimpl; [constructor|]. constructor; [|done].
  unfold unsourced, map_trn_comment, set_value_tags. simpl. split_and!; try done.
  - change TRANSACTION_SOURCE_KEY with (s2l "source-file"). apply lookup_delete.
  - intros k Hk. change TRANSACTION_SOURCE_KEY with (s2l "source-file"). by rewrite lookup_delete_ne.
Qed.

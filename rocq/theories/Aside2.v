(** Proofs for C139: the theorems. *)
From Verif Require Import Base Types CommentModel MergeModel SpecBase BaseProofs MergeSpec MergeClaims
  MergeProofs MergePending MergeApply MergeBuild MergeClosed MergeLemmas MergePlaces MergeLaws MergeLaws2
  MergeLaws3 MergeLaws4 MergeReplay CmdModel CmdClaims CmdProofs CmdMerge CmdMerge2 CmdIdem HeaderClaims CmdPlain WorkCmd ReRun
  AsideClaims Aside.
From Coq Require Import Lia.
Local Open Scope nat_scope.

Lemma loaded_parent tps x : x ∈ j_posts (spec_merge journal_new tps) → jp_trn x < length (j_trns (spec_merge journal_new tps)).
Proof.
  unfold spec_merge.
  enough (∀ j, (∀ x, x ∈ j_posts j → jp_trn x < length (j_trns j)) →
    x ∈ j_posts (foldl (apply_trn journal_new) j tps) → jp_trn x < length (j_trns (foldl (apply_trn journal_new) j tps))) as H.
  { apply H. intros y Hy. by apply elem_of_nil in Hy. }
  induction tps as [|tp tps IH]; intros j Hj Hx; [by apply Hj|]. cbn [foldl] in Hx |- *. apply IH; [|done].
  intros y Hy. unfold apply_trn in Hy |- *. destruct (left_out journal_new tp); [by apply Hj|]. rewrite new_dests in Hy |- *.
  cbn [mbind list_bind j_posts j_trns] in Hy |- *. rewrite app_length. simpl.
  apply new_dates in Hy as [Hy|(_ & -> & _)]; [specialize (Hj y Hy); lia|lia|apply new_zip].
Qed.
Lemma loaded_trns ho tps m : hash_order_ok ho → merge ho merger_new tps = (m, Ok []) →
  reachable m ∧ represents m (spec_merge journal_new tps) ∧ ∀ tp, tp ∈ tps → tp_posts tp ≠ [].
Proof.
  intros Hho Hm. destruct (merge_inv merger_new journal_new reach_new rep_new ho tps m [] Hho Hm) as (_ & _ & Hj & Hun).
  split_and!; [|done|].
  - replace m with (merge ho merger_new tps).1 by by rewrite Hm. constructor; [constructor|done].
  - intros tp Htp E. inversion Hun as [Hf|]; subst.
    assert (tp ∈ filter (λ tp, left_out journal_new tp = true) tps) as Hin.
    { apply elem_of_list_filter. split; [by apply new_left_out|done]. }
    rewrite <- Hf in Hin. by apply elem_of_nil in Hin.
Qed.
Lemma journal_trns_loaded tps : (∀ tp, tp ∈ tps → tp_posts tp ≠ []) → journal_trns (spec_merge journal_new tps) = tps.
Proof.
  intros H. rewrite spec_merge_all_new; [|by intros x Hx%elem_of_nil|done]. simpl. by apply filter_all.
Qed.

Lemma aside_gen old sets ho ho' m0 m0' j0 : hash_order_ok ho → hash_order_ok ho' →
  (∀ tp, tp ∈ old → tp_posts tp ≠ []) → Forall (unconcerned old) sets →
  reachable m0 → represents m0 j0 → reachable m0' → represents m0' (beside (spec_merge journal_new old) j0) →
  same_aside old ho ho' m0 m0' sets.
Proof.
  intros Hho Hho' Hne Hun Hr Hj Hr' Hj'. set (J := spec_merge journal_new old) in *.
  assert (Forall (off J) sets) as Hoff by (eapply Forall_impl; [exact Hun|]; intros; by apply unconcerned_off).
  split.
  - intros un m Hm. destruct (merges_beside ho ho' J sets Hho Hho' Hoff m0 m0' j0 un m) as (un' & m' & jf & Hm' & Hrf & Hjf & Hrf' & Hjf' & HF); [done..|].
    exists un', m'. split_and!; [done..|]. intros hb hb' out Hhb Hhb' Hb.
    exists (stable_sort (by_key tp_date) (journal_trns (beside J jf))). split; [by apply build_refines|].
    rewrite (build_inv hb m jf out Hhb Hjf Hb). apply put_together_sort.
    rewrite trns_beside; [|by apply loaded_parent]. by unfold J; rewrite journal_trns_loaded.
  - intros un' m' Hm'. by eapply (merges_beside_back ho ho' J sets).
Qed.

Lemma c139_files old sets h ho ho' m0 : hash_order_ok h → hash_order_ok ho → hash_order_ok ho' →
  merge h merger_new old = (m0, Ok []) → Forall (unconcerned old) sets → same_aside old ho ho' merger_new m0 sets.
Proof.
  intros Hh Hho Hho' Hm Hun. destruct (loaded_trns h old m0 Hh Hm) as (Hr & Hj & Hne).
  apply (aside_gen old sets ho ho' merger_new m0 journal_new); try done; [constructor|apply rep_new|by rewrite beside_new].
Qed.
Lemma c139_parts old new sets h h' ho ho' m0 m0' : hash_order_ok h → hash_order_ok h' → hash_order_ok ho → hash_order_ok ho' →
  merge h merger_new new = (m0, Ok []) → merge h' merger_new (old ++ new) = (m0', Ok []) →
  Forall (unconcerned old) sets → same_aside old ho ho' m0 m0' sets.
Proof.
  intros Hh Hh' Hho Hho' Hm Hm' Hun. destruct (loaded_trns h new m0 Hh Hm) as (Hr & Hj & _).
  destruct (loaded_trns h' (old ++ new) m0' Hh' Hm') as (Hr' & Hj' & Hne). rewrite loaded_app in Hj'.
  eapply (aside_gen old sets ho ho' m0 m0' _); try done. intros tp Htp. apply Hne, elem_of_app. by left.
Qed.

(** Earlier years. *)
Lemma put_together_before old new l old' : put_together old new l → put_together old [] old' →
  StronglySorted (λ a b, date_leb (tp_date a) (tp_date b) = true) new →
  (∀ a b, a ∈ old → b ∈ new → date_leb (tp_date a) (tp_date b) = true) →
  l = old' ++ new.
Proof.
  intros [H1 H2] [H3 H4] H5 H6.
  assert (∀ tp, tp ∈ old' → tp ∈ old) as Hsub.
  { intros tp Htp. assert (tp ∈ filter (λ x, tp_date x = tp_date tp) old') as Hin by by apply elem_of_list_filter.
    rewrite H4, filter_nil, app_nil_r in Hin. by apply elem_of_list_filter in Hin as [_ ?]. }
  apply (sorted_classes_unique tp_date); [done| |].
  - clear H1 H2 H4. induction old' as [|a old' IH]; [done|]. inversion H3; subst. simpl. constructor.
    + apply IH; [done|]. intros tp Htp. apply Hsub. by right.
    + apply Forall_app. split; [done|]. apply Forall_forall. intros b Hb. apply H6; [|done]. apply Hsub. left.
  - intros d. by rewrite H2, filter_app, H4, filter_nil, app_nil_r.
Qed.

Lemma ran E ho fs tpss o w w0 es r : hash_order_ok ho → journals E w fs tpss w0 → writable E o →
  merge_cmd E ho fs None o w = (es, r) →
  (r = Ok tt ↔ ∃ m, merges ho merger_new tpss [] m) ∧
  ∀ m, merges ho merger_new tpss [] m → ∃ out, build ho m = Ok out ∧ holds w (steps w es) o (e_print E (into_ledger ho out)).
Proof.
  intros Hho Hj Hw Hrun.
  assert (∀ m, merges ho merger_new tpss [] m → r = Ok tt ∧ ∃ out, build ho m = Ok out ∧ holds w (steps w es) o (e_print E (into_ledger ho out))) as H.
  { intros m Hm. destruct (c99_journals E ho fs None o w tpss w0 [] m Hho Hj Hm) as (es' & un' & out & Hrun' & Hb & _ & Hh & _);
      [by left|done|done|]. rewrite Hrun in Hrun'. injection Hrun' as <- ->. split; [done|]. exists out. split; [done|]. apply Hh. by left. }
  split; [|intros m Hm; by apply H]. split; [|intros [m Hm]; by apply (H m)]. intros ->.
  destruct (merges_dec ho tpss merger_new) as [(un & m & Hm)|Hn].
  - destruct (decide (un = [])) as [->|Hne]; [by eauto|].
    destruct (c99_journals_failed E ho fs None o w tpss w0 es (Ok tt) Hho Hj) as [[e ?] _]; [|done|done].
    intros un' m' [Hm' [->|[? ?]]]; [|done]. destruct (merges_fun _ _ _ _ _ _ _ Hm Hm') as [-> _]. done.
  - destruct (c99_journals_failed E ho fs None o w tpss w0 es (Ok tt) Hho Hj) as [[e ?] _]; [|done|done].
    intros un' m' [Hm' _]. by apply Hn in Hm'.
Qed.
Lemma merges_cons_inv ho m s sets un m' : merges ho m (s :: sets) un m' →
  ∃ m1 u un1, merge ho m s = (m1, Ok u) ∧ merges ho m1 sets un1 m' ∧ un = u ++ un1.
Proof. intros H. inversion H; subst. eauto 6. Qed.
Lemma merges_first ho m s m0 sets m' : merge ho m s = (m0, Ok []) → merges ho m (s :: sets) [] m' ↔ merges ho m0 sets [] m'.
Proof.
  intros Hm. split.
  - intros H. destruct (merges_cons_inv _ _ _ _ _ _ H) as (mx & u & un & Hx & Hy & E).
    symmetry in E. apply app_eq_nil in E as [-> ->]. rewrite Hm in Hx. by injection Hx as <-.
  - intros H. change (@nil transaction_postings) with (@nil transaction_postings ++ []). by econstructor.
Qed.
Lemma c139_command E ho ho' cur whole fs old new ss o o' w w1 w2 es es' r r' m0 m0' :
  hash_order_ok ho → hash_order_ok ho' →
  journals E w (cur :: fs) (new :: ss) w1 → journals E w (whole :: fs) ((old ++ new) :: ss) w2 →
  merge ho merger_new new = (m0, Ok []) → merge ho' merger_new (old ++ new) = (m0', Ok []) →
  Forall (unconcerned old) ss → writable E o → writable E o' →
  merge_cmd E ho (cur :: fs) None o w = (es, r) → merge_cmd E ho' (whole :: fs) None o' w = (es', r') →
  (r' = Ok tt ↔ r = Ok tt) ∧
  (r = Ok tt → ∃ out out', holds w (steps w es) o (e_print E (into_ledger ho out)) ∧
     holds w (steps w es') o' (e_print E (into_ledger ho' out')) ∧ put_together old out out').
Proof.
  intros Hho Hho' Hj Hj' Hm Hm' Hun Ho Ho' Hrun Hrun'.
  destruct (ran _ _ _ _ _ _ _ _ _ Hho Hj Ho Hrun) as [Hr Hout]. destruct (ran _ _ _ _ _ _ _ _ _ Hho' Hj' Ho' Hrun') as [Hr' Hout'].
  destruct (c139_parts old new ss ho ho' ho ho' m0 m0') as [H1 H2]; [done..|].
  assert (∀ m, merges ho merger_new (new :: ss) [] m ↔ merges ho m0 ss [] m) as E1 by (intros m; by apply merges_first).
  assert (∀ m, merges ho' merger_new ((old ++ new) :: ss) [] m ↔ merges ho' m0' ss [] m) as E2 by (intros m; by apply merges_first).
  split.
  - rewrite Hr, Hr'. split; intros [m Hms].
    + apply E2 in Hms. destruct (H2 _ _ Hms) as (un & m1 & Hm1). destruct (H1 _ _ Hm1) as (un' & m2 & Hm2 & HF & _).
      destruct (merges_fun _ _ _ _ _ _ _ Hms Hm2) as [<- _]. inversion HF; subst. exists m1. by apply E1.
    + apply E1 in Hms. destruct (H1 _ _ Hms) as (un' & m2 & Hm2 & HF & _). inversion HF; subst. exists m2. by apply E2.
  - intros Hok. apply Hr in Hok as [m Hms]. destruct (Hout m Hms) as (out & Hb & Hh). apply E1 in Hms.
    destruct (H1 _ _ Hms) as (un' & m2 & Hm2 & HF & Hbuild). inversion HF; subst. apply E2 in Hm2.
    destruct (Hout' m2 Hm2) as (out' & Hb' & Hh'). destruct (Hbuild ho ho' out Hho Hho' Hb) as (out2 & Hb2 & Hp).
    rewrite Hb' in Hb2. injection Hb2 as <-. eauto.
Qed.

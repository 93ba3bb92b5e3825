(** The merge command with an order of its own for every iteration. *)
From stdpp Require Import gmap list.
From Verif Require Import Base Types CommentModel MergeModel CmdModel FreeOrderModel SpecBase BaseProofs MergeSpec MergeClaims PropsMergeProofs
  CommentClaims CommentLaws CmdClaims CmdProofs CmdMerge CmdMerge2 CmdIdem CmdOrder FreeClaims FreeOrder.
Local Open Scope nat_scope.

Lemma into_ledger_free_order os ho tps : orders_ok os → hash_order_ok ho → into_ledger_free os tps = into_ledger ho tps.
Proof.
  intros Hos Hho. unfold into_ledger_free, into_ledger. f_equal. apply list_eq. intros i. rewrite list_lookup_imap, list_lookup_fmap.
  destruct (tps !! i) as [tp|]; [|done]. cbn. f_equal. unfold transaction_of_postings_free, transaction_of_postings.
  unfold transaction_of. rewrite (into_opt_comment_order (now (at_ (at_ os i) 0)) ho) by (done || apply Hos). f_equal.
  apply list_eq. intros k. rewrite list_lookup_imap, list_lookup_fmap. destruct (tp_posts tp !! k) as [p|]; [|done]. cbn. f_equal.
  unfold posting_of. by rewrite (into_opt_comment_order (now (at_ (at_ os i) (S k))) ho) by (done || apply Hos).
Qed.
Lemma sorted_groups_order ho ho' file tps : hash_order_ok ho → hash_order_ok ho' →
  sorted_groups ho (group_by_source file tps) = sorted_groups ho' (group_by_source file tps).
Proof. intros H H'. eapply by_source_fun; by apply sorted_groups_spec. Qed.
Lemma read_sources_order E ho ho' f w : hash_order_ok ho → hash_order_ok ho' → read_sources E ho f w = read_sources E ho' f w.
Proof.
  intros H H'. unfold read_sources, io_bind, io_of, io_ret. destruct (read_ledger E f w) as [es [l| |]]; try done.
  destruct (from_ledger l) as [tps| |]; try done. by rewrite (sorted_groups_order ho ho').
Qed.

Definition ends_alike (r r' : result (merger * list transaction_postings)) : Prop :=
  (∃ m un un', r = Ok (m, un) ∧ r' = Ok (m, un') ∧ reachable m ∧ Forall2 equal_but_candidates un un') ∨
  (∃ e e', r = Err e ∧ r' = Err e').
Lemma merge_sets_order ho sets : hash_order_ok ho → ∀ os ds m un un', orders_ok os → dests_ok ds → reachable m → Forall2 equal_but_candidates un un' →
  ends_alike (merge_sets_free os ds m un sets) (merge_sets ho m un' sets).
Proof.
  intros Hho. induction sets as [|s sets IH]; intros os ds m un un' Hos Hds Hr Hun; cbn [merge_sets_free merge_sets].
  - left. eauto 10.
  - destruct (merge_free_order m (at_ os 0) (ds []) ho s Hr (orders_ok_at _ _ Hos) (Hds []) Hho) as (Em & Hres).
    destruct (merge_free (at_ os 0) (ds []) m s) as [m1 r1]. destruct (merge ho m s) as [m2 r2] eqn:E2. cbn [fst snd] in *. subst m2.
    destruct Hres as [(u & u' & -> & -> & HF)|(e & e' & -> & ->)]; [|right; eauto].
    apply IH; [by apply orders_ok_at|by intros place; apply Hds| |by apply Forall2_app].
    pose proof (reach_merge m ho s Hr Hho) as X. rewrite E2 in X. exact X.
Qed.
Lemma merge_inputs_order E ho inputs : hash_order_ok ho → ∀ os ds m un un' w, orders_ok os → dests_ok ds → reachable m → Forall2 equal_but_candidates un un' →
  (merge_inputs_free E os ds m un inputs w).1 = (merge_inputs E ho m un' inputs w).1 ∧
  ends_alike (merge_inputs_free E os ds m un inputs w).2 (merge_inputs E ho m un' inputs w).2.
Proof.
  intros Hho. induction inputs as [|f inputs IH]; intros os ds m un un' w Hos Hds Hr Hun; cbn [merge_inputs_free merge_inputs].
  - split; [done|]. left. unfold io_ret. eauto 10.
  - unfold io_bind, io_of. rewrite (read_sources_order E (now (at_ os 0)) ho f w) by (done || apply Hos).
    destruct (read_sources_spec E ho f w Hho) as (es & r & -> & _ & [(l & sets & -> & _)|([e ->] & _)]); [|split; [done|right; eauto]].
    destruct (merge_sets_order ho sets Hho (at_ os 1) (dests_at ds 0) m un un' (orders_ok_at _ _ Hos) ltac:(intros place; apply Hds) Hr Hun)
      as [(m1 & u & u' & -> & -> & Hr1 & HF)|(e & e' & -> & ->)]; [|split; [done|right; eauto]].
    destruct (IH (at_ os 2) (dests_at ds 1) m1 u u' (steps (steps w es) []) (orders_ok_at _ _ Hos) ltac:(intros place; apply Hds) Hr1 HF) as (E1 & H1).
    destruct (merge_inputs_free E (at_ os 2) _ m1 u inputs _) as [es1 r1]. destruct (merge_inputs E ho m1 u' inputs _) as [es2 r2]. cbn [fst snd] in *.
    by subst es2.
Qed.

Lemma merge_cmd_free_order E os ds ho inputs um output w es r es' r' :
  orders_ok os → dests_ok ds → hash_order_ok ho → (∀ f, um = Some f → writable E f) → writable E output →
  merge_cmd_free E os ds inputs um output w = (es, r) → merge_cmd E ho inputs um output w = (es', r') →
  let w1 := steps w es in let w2 := steps w es' in
  (r = Ok tt ∧ r' = Ok tt ∧
   (∀ p, um ≠ Some (Path p) → w_files w1 !! p = w_files w2 !! p) ∧
   (output = Stdio → um ≠ Some Stdio → w_stdout w1 = w_stdout w2) ∧
   ∃ un un', Forall2 equal_but_candidates un un' ∧
     ∀ f, um = Some f → f ≠ output →
       match un with
       | [] => ∀ p, f = Path p → same_file w w1 p ∧ same_file w w2 p
       | _ => holds w w1 f (e_print E (into_ledger ho un)) ∧ holds w w2 f (e_print E (into_ledger ho un'))
       end) ∨
  (∃ e e', r = Err e ∧ r' = Err e' ∧ untouched w w1 ∧ untouched w w2).
Proof.
  intros Hos Hds Hho Hum Hout E1 E2. cbv zeta.
  destruct (merge_inputs_spec E ho inputs Hho merger_new [] w reach_new) as (es0 & r0 & Ei & Hq & _).
  destruct (merge_inputs_order E ho inputs Hho (at_ os 0) ds merger_new [] [] w (orders_ok_at _ _ Hos) Hds reach_new (List.Forall2_nil _)) as (Ees & Hends).
  rewrite Ei in Ees, Hends. cbn [fst snd] in Ees, Hends. pose proof (quiet_untouched w es0 Hq) as Hunt.
  destruct (merge_inputs_free E (at_ os 0) ds merger_new [] inputs w) as [es1 r1] eqn:Ei1. cbn [fst snd] in Ees, Hends. subst es1.
  destruct Hends as [(m & un & un' & -> & -> & Hr & HF)|(e & e' & -> & ->)].
  2:{ unfold merge_cmd_free, merge_cmd, io_bind in E1, E2. rewrite Ei1 in E1. rewrite Ei in E2. injection E1 as <- <-. injection E2 as <- <-.
      right. exists e, e'. done. }
  destruct un as [|tp un].
  { apply Forall2_nil_inv_l in HF as ->.
    assert (merge_cmd_free E os ds inputs um output w = merge_cmd E ho inputs um output w) as Esame.
    { unfold merge_cmd_free, merge_cmd, io_bind. rewrite Ei, Ei1. cbn [write_unmerged_free write_unmerged]. unfold io_ret, io_of.
      destruct (c17 m (now (at_ os 2)) ho [] Hr (Hos _) Hho) as (_ & Eb & _). rewrite Eb. destruct (build ho m) as [tps| |]; try done.
      by rewrite (into_ledger_free_order (at_ os 3) ho _ (orders_ok_at _ _ Hos) Hho). }
    rewrite Esame, E2 in E1. injection E1 as -> ->.
    exact (merge_cmd_order E ho ho inputs um output w es r es r Hho Hho Hum Hout E2 E2). }
  destruct un' as [|tp' un']; [by apply Forall2_nil_inv_r in HF|].
  unfold merge_cmd_free, merge_cmd, io_bind in E1, E2. rewrite Ei1 in E1. rewrite Ei in E2.
  destruct um as [f|].
  2:{ cbn [write_unmerged_free write_unmerged io_fail] in E1, E2. unfold io_fail in E1, E2. rewrite app_nil_r in E1, E2.
      injection E1 as <- <-. injection E2 as <- <-. right. eexists _, _. done. }
  cbn [write_unmerged_free write_unmerged] in E1, E2. unfold write_ledger in E1, E2.
  rewrite (into_ledger_free_order (at_ os 1) ho _ (orders_ok_at _ _ Hos) Hho) in E1.
  set (w0 := steps w es0) in *. set (t1 := e_print E (into_ledger ho (tp :: un))) in *. set (t2 := e_print E (into_ledger ho (tp' :: un'))) in *.
  destruct (write_file_spec E f t1 w0) as (ea & ra & Ea & [[-> Sa]|[_ Hx]] & _); [|by destruct (Hx (Hum f eq_refl))].
  destruct (write_file_spec E f t2 w0) as (eb & rb & Eb & [[-> Sb]|[_ Hx]] & _); [|by destruct (Hx (Hum f eq_refl))].
  rewrite Ea in E1. rewrite Eb in E2. unfold io_of in E1, E2. rewrite Sa in E1. rewrite Sb in E2.
  destruct (c17 m (now (at_ os 2)) ho [] Hr (Hos _) Hho) as (_ & Ebd & _). rewrite Ebd in E1.
  destruct (c02 m ho [] Hr Hho) as [_ [out Eout]]. rewrite Eout in E1, E2. cbn [steps foldl] in E1, E2.
  rewrite (into_ledger_free_order (at_ os 3) ho _ (orders_ok_at _ _ Hos) Hho) in E1.
  set (t := e_print E (into_ledger ho (strip_sources out))) in *.
  destruct (write_file_spec E output t (written w0 f t1)) as (ec & rc & Ec & [[-> Sc]|[_ Hx]] & _); [|by destruct (Hx Hout)].
  destruct (write_file_spec E output t (written w0 f t2)) as (ed & rd & Ed & [[-> Sd]|[_ Hx]] & _); [|by destruct (Hx Hout)].
  rewrite Ec in E1. rewrite Ed in E2. cbn [app] in E1, E2. injection E1 as <- <-. injection E2 as <- <-.
  rewrite !steps_app. fold w0. rewrite Sa, Sb, Sc, Sd. destruct Hunt as (Hf & _ & Hso). left. split_and!; [done|done| | |].
  - intros p Hp. destruct f as [|q], output as [|o]; cbn; try done.
    + destruct (decide (p = q)) as [->|]; [done|]. by rewrite !lookup_insert_ne by done.
    + destruct (decide (p = o)) as [->|]; [by rewrite !lookup_insert|]. rewrite !(lookup_insert_ne _ o) by done.
      destruct (decide (p = q)) as [->|]; [done|]. by rewrite !lookup_insert_ne by done.
  - intros -> Hs. destruct f as [|q]; [done|]. done.
  - exists (tp :: un), (tp' :: un'). split; [done|]. intros f' [= <-] Hne. fold t1 t2.
    destruct f as [|q], output as [|o]; cbn; try done.
    + by rewrite Hso.
    + by rewrite !lookup_insert.
    + rewrite !(lookup_insert_ne _ o q) by congruence. by rewrite !lookup_insert.
Qed.

Lemma merge_sets_same ho sets : ∀ m un, merge_sets_free (λ _, ho) (λ _, map_to_list) m un sets = merge_sets ho m un sets.
Proof.
  induction sets as [|s sets IH]; intros m un; cbn [merge_sets_free merge_sets]; [done|].
  change (at_ (λ _, ho) 0) with (λ _ : list nat, ho). rewrite (merge_same ho m s). destruct (merge ho m s) as [m1 [u| |]]; [|done..]. apply IH.
Qed.
Lemma merge_inputs_same E ho inputs : ∀ m un w, merge_inputs_free E (λ _, ho) (λ _, map_to_list) m un inputs w = merge_inputs E ho m un inputs w.
Proof.
  induction inputs as [|f inputs IH]; intros m un w; cbn [merge_inputs_free merge_inputs]; [done|]. unfold io_bind, io_of.
  change (now (at_ (λ _, ho) 0)) with ho. destruct (read_sources E ho f w) as [es [sets| |]]; [|done..].
  change (at_ (λ _, ho) 1) with (λ _ : list nat, ho). change (at_ (λ _, ho) 2) with (λ _ : list nat, ho).
  pose proof (merge_sets_same ho sets m un) as Es. cbv beta delta [dests_at] in *. rewrite Es. destruct (merge_sets ho m un sets) as [[m1 u]| |]; [|done..]. by rewrite IH.
Qed.
Lemma imap_const {A B} (f : A → B) (l : list A) : imap (λ _, f) l = f <$> l.
Proof. apply list_eq. intros i. rewrite list_lookup_imap, list_lookup_fmap. done. Qed.
Lemma into_ledger_same ho tps : into_ledger_free (λ _, ho) tps = into_ledger ho tps.
Proof.
  unfold into_ledger_free, into_ledger. f_equal. rewrite <-(imap_const (transaction_of_postings ho)). apply imap_ext. intros i tp _.
  unfold transaction_of_postings_free, transaction_of_postings. f_equal. exact (imap_const (posting_of ho) (tp_posts tp)).
Qed.
Lemma merge_cmd_same E ho inputs um output w :
  merge_cmd_free E (λ _, ho) (λ _, map_to_list) inputs um output w = merge_cmd E ho inputs um output w.
Proof.
  unfold merge_cmd_free, merge_cmd, io_bind. change (at_ (λ _, ho) 0) with (λ _ : list nat, ho). rewrite merge_inputs_same.
  destruct (merge_inputs E ho merger_new [] inputs w) as [es [[m un]| |]]; [|done..].
  assert (∀ w, write_unmerged_free E (at_ (λ _, ho) 1) um un w = write_unmerged E ho um un w) as ->.
  { intros w'. unfold write_unmerged_free, write_unmerged. destruct un as [|tp un]; [done|]. destruct um as [f|]; [|done].
    change (at_ (λ _, ho) 1) with (λ _ : list nat, ho). by rewrite into_ledger_same. }
  destruct (write_unmerged E ho um un (steps w es)) as [es1 [[]| |]]; [|done..]. change (now (at_ (λ _, ho) 2)) with ho.
  unfold io_of. destruct (build ho m) as [tps| |]; [|done..]. change (at_ (λ _, ho) 3) with (λ _ : list nat, ho). by rewrite into_ledger_same.
Qed.

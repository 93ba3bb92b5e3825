(** What is handed back leaves no trace (C143). *)
From Verif Require Import MergeClaims.
From Verif Require Import Base Types SpecBase BaseProofs CommentModel MergeModel CmdModel MergeSpec CmdClaims
  HistoryClaims AccountedClaims HandedClaims MergeProofs MergePending MergeApply MergeBuild MergeClosed MergeLemmas MergePlaces MergeLaws2 PropsMergeProofs CmdMerge CmdIdem HeaderClaims CmdPlain ReRun LastAgain.
From Coq Require Import Lia.
Local Open Scope nat_scope.

Lemma see_sub fps : ∀ s0 s s', s0 ⊆ s → see_fingerprints s fps = Ok s' →
  s ⊆ s' ∧ ∃ s0', see_fingerprints s0 fps = Ok s0' ∧ s0' ⊆ s'.
Proof.
  induction fps as [|f fps IH]; intros s0 s s' Hs; cbn.
  - intros [= <-]. split; [done|]. by exists s0.
  - destruct (decide (f ∈ s)) as [|Hf]; [done|]. intros H. rewrite decide_False by (intros Hf'; by apply Hf, Hs).
    destruct (IH ({[f]} ∪ s0) ({[f]} ∪ s) s' ltac:(set_solver) H) as [H1 H2]. split; [set_solver|done].
Qed.
Lemma process_sub ho m d posts : ∀ s0 s acc s' acc', s0 ⊆ s → process_posts ho m d s acc posts = Ok (s', acc') →
  s ⊆ s' ∧ ∃ s0', process_posts ho m d s0 acc posts = Ok (s0', acc') ∧ s0' ⊆ s'.
Proof.
  induction posts as [|p posts IH]; intros s0 s acc s' acc' Hs; cbn.
  - intros [= <- <-]. split; [done|]. by exists s0.
  - destruct (input_from_posting_internal ho p d) as [i| |]; cbn; [|done..].
    destruct (see_fingerprints s _) as [s1| |] eqn:E1; cbn; [|done..].
    destruct (see_sub _ _ _ _ Hs E1) as (Hg & s01 & E2 & Hs1). rewrite E2. cbn.
    destruct (determine_posting_action ho m i) as [[i' a]| |]; cbn; [|done..].
    intros H. destruct (IH _ _ _ _ _ Hs1 H) as [H1 H2]. split; [by etrans|done].
Qed.
Lemma action_sub ho m tp s0 s s' a : s0 ⊆ s → to_transaction_merge_action ho m s tp = Ok (s', a) →
  s ⊆ s' ∧ ∃ s0', to_transaction_merge_action ho m s0 tp = Ok (s0', a) ∧ s0' ⊆ s'.
Proof.
  intros Hs. unfold to_transaction_merge_action. destruct (tp_posts tp) as [|p ps].
  - intros [= <- <-]. split; [done|]. by exists s0.
  - destruct (process_posts ho m _ s _ (p :: ps)) as [[s1 acts]| |] eqn:E; cbn [rbind]; [|done..].
    destruct (process_sub _ _ _ _ _ _ _ _ _ Hs E) as (Hg & s01 & E2 & Hs1). rewrite E2. cbn [rbind].
    destruct acts as [l|l].
    + destruct (find_existing_dest_trn m l) as [dest| |]; cbn [rbind]; [|done..]. intros [= <- <-]. split; [done|]. by exists s01.
    + intros [= <- <-]. split; [done|]. by exists s01.
Qed.

(** Which of the actions hand back a transaction. *)
Definition is_leave (a : trn_action) : bool := match a with TLeave _ => true | _ => false end.
Definition cons_back (b : bool) (back : nat → bool) (x : nat) : bool := match x with 0 => b | S x => back x end.
Lemma handed_cons b back tp s : handed (cons_back b back) (tp :: s) = (if b then [tp] else []) ++ handed back s.
Proof. done. Qed.
Lemma kept_cons b back tp s : kept_back (cons_back b back) (tp :: s) = (if b then [] else [tp]) ++ kept_back back s.
Proof. done. Qed.

Lemma pending_split ho m tps : ∀ s sk sh l, sk ⊆ s → sh ⊆ s → make_pending_from ho m s tps = Ok l →
  ∃ back, make_pending_from ho m sk (kept_back back tps) = Ok (List.filter (λ a, negb (is_leave a)) l) ∧
    make_pending_from ho m sh (handed back tps) = Ok (List.filter is_leave l).
Proof.
  induction tps as [|tp tps IH]; intros s sk sh l Hk Hh; cbn [make_pending_from].
  - intros [= <-]. by exists (λ _, true).
  - destruct (to_transaction_merge_action ho m s tp) as [[s1 a]| |] eqn:E; cbn [rbind]; [|done..].
    destruct (make_pending_from ho m s1 tps) as [l1| |] eqn:E1; cbn [rbind]; [|done..]. intros [= <-].
    destruct (action_sub _ _ _ _ _ _ _ Hk E) as (Hg & sk1 & Ek & Hk1).
    destruct (action_sub _ _ _ _ _ _ _ Hh E) as (_ & sh1 & Eh & Hh1).
    destruct (is_leave a) eqn:Ea.
    + destruct (IH s1 sk sh1 l1 ltac:(by etrans) Hh1 E1) as (back & H1 & H2).
      exists (cons_back true back). rewrite handed_cons, kept_cons. cbn [app make_pending_from List.filter]. rewrite Ea. cbn [negb].
      split; [done|]. rewrite Eh. cbn [rbind]. by rewrite H2.
    + destruct (IH s1 sk1 sh l1 Hk1 ltac:(by etrans) E1) as (back & H1 & H2).
      exists (cons_back false back). rewrite handed_cons, kept_cons. cbn [app make_pending_from List.filter]. rewrite Ea. cbn [negb].
      split; [|done]. rewrite Ek. cbn [rbind]. by rewrite H1.
Qed.

Definition source_step (mp : gmap nat (list input)) (a : trn_action) : gmap nat (list input) :=
  match a with
  | TMergeInto _ posts _ =>
      foldl (λ mp '(i, act), match act with PNew => mp | PMergeInto x => push_entry x i mp end) mp posts
  | _ => mp
  end.
Lemma sources_kept l : sources_by_dest (List.filter (λ a, negb (is_leave a)) l) = sources_by_dest l.
Proof.
  change (foldl source_step ∅ (List.filter (λ a, negb (is_leave a)) l) = foldl source_step ∅ l).
  generalize (∅ : gmap nat (list input)). induction l as [|[| |] l IH]; intros mp; cbn [List.filter is_leave negb foldl source_step]; by rewrite ?IH.
Qed.
Lemma sources_handed l : sources_by_dest (List.filter is_leave l) = ∅.
Proof.
  change (foldl source_step ∅ (List.filter is_leave l) = ∅).
  generalize (∅ : gmap nat (list input)). induction l as [|[| |] l IH]; intros mp; cbn [List.filter is_leave foldl source_step]; by rewrite ?IH.
Qed.
Lemma apply_split ho l : ∀ m m' un, apply_pending ho m l = (m', Ok un) →
  apply_pending ho m (List.filter (λ a, negb (is_leave a)) l) = (m', Ok []) ∧
  (∀ m0, apply_pending ho m0 (List.filter is_leave l) = (m0, Ok un)) ∧ length un = length (List.filter is_leave l).
Proof.
  induction l as [|[trn posts|trn posts t|tp] l IH]; intros m m' un; cbn [List.filter is_leave negb apply_pending].
  - by intros [= <- <-].
  - destruct (trns_add _ _) as [it t]. destruct (apply_post_actions ho _ t posts) as [m1 [[]| |]]; [|done..]. apply IH.
  - destruct (apply_post_actions ho _ t posts) as [m1 [[]| |]]; [|done..]. apply IH.
  - destruct (apply_pending ho m l) as [m1 [u| |]] eqn:E; cbn [rmap]; [|done..]. intros [= <- <-].
    destruct (IH _ _ _ E) as (H1 & H2 & H3). split_and!; [done| |cbn; by rewrite H3].
    intros m0. by rewrite H2.
Qed.
Lemma pending_length ho m tps : ∀ s l, make_pending_from ho m s tps = Ok l → length l = length tps.
Proof.
  induction tps as [|tp tps IH]; intros s l; cbn [make_pending_from]; [by intros [= <-]|].
  destruct (to_transaction_merge_action ho m s tp) as [[s1 a]| |]; cbn [rbind]; [|done..].
  destruct (make_pending_from ho m s1 tps) as [l1| |] eqn:E1; cbn [rbind]; [|done..]. intros [= <-]. cbn. by erewrite IH.
Qed.

Lemma c143_merge ho m s m' un : hash_order_ok ho → reachable m → merge ho m s = (m', Ok un) →
  ∃ back, Forall2 returned_unmerged (handed back s) un ∧
    merge ho m (kept_back back s) = (m', Ok []) ∧ merge ho m (handed back s) = (m, Ok un).
Proof.
  intros Hho Hr. unfold merge at 1, make_pending. destruct (make_pending_from ho m ∅ s) as [l| |] eqn:El; [|done..].
  destruct (check_pending m l) as [[]| |] eqn:Ec; [|done..]. intros Ha.
  destruct (pending_split ho m s ∅ ∅ ∅ l ltac:(done) ltac:(done) El) as (back & Hk & Hh).
  destruct (apply_split _ _ _ _ _ Ha) as (H1 & H2 & H3). exists back.
  assert (Hm : merge ho m (handed back s) = (m, Ok un)).
  { unfold merge, make_pending. rewrite Hh. unfold check_pending. rewrite sources_handed, map_to_list_empty. cbn. apply H2. }
  split_and!; [|unfold merge, make_pending; rewrite Hk; unfold check_pending in *; by rewrite sources_kept, Ec|done].
  destruct (reachable_represents _ Hr) as (j & Hj & Hwf).
  destruct (merge_cases _ _ _ _ _ _ Hho Hj Hwf Hm) as [(_ & _ & _ & un' & [= <-] & Hun)|(_ & _ & e & [=])].
  apply pending_length in Hh. rewrite <- H3, <- (Forall2_length _ _ _ Hun) in Hh.
  replace (filter (λ tp, left_out j tp = true) (handed back s)) with (handed back s) in Hun.
  { eapply Forall2_impl; [exact Hun|]. intros a b. apply returned_as_unmerged. }
  clear -Hh. induction (handed back s) as [|tp l IH]; [done|]. rewrite filter_cons in *. destruct (decide _).
  - cbn in Hh. rewrite <- IH; [done|lia].
  - cbn in Hh. pose proof (filter_length (λ tp, left_out j tp = true) l). lia.
Qed.
Lemma c143_history ho m sets un m' : hash_order_ok ho → reachable m → merges ho m sets un m' →
  ∃ back, Forall2 returned_unmerged (all_handed back sets) un ∧ merges ho m (all_kept back sets) [] m'.
Proof.
  intros Hho Hr Hm. induction Hm as [m|m s m1 u sets un m' Hs Hm IH].
  - exists (λ _ _, true). split; constructor.
  - destruct (c143_merge _ _ _ _ _ Hho Hr Hs) as (b & H1 & H2 & _).
    destruct IH as (back & H3 & H4); [change m1 with (m1, Ok u).1; rewrite <- Hs; by apply reach_merge|].
    exists (λ r, match r with 0 => b | S r => back r end). split.
    + apply Forall2_app; [exact H1|exact H3].
    + change (@nil transaction_postings) with ([] ++ [] : list transaction_postings). eapply merges_cons; [exact H2|exact H4].
Qed.

(** The last inputs again. *)
Lemma all_kept_app back a b : all_kept back (a ++ b) = all_kept back a ++ all_kept (λ r, back (length a + r)) b.
Proof. unfold all_kept. rewrite imap_app. reflexivity. Qed.
Lemma c143_again ho a b un m : hash_order_ok ho → merges ho merger_new (a ++ b) un m →
  ∃ back, Forall2 returned_unmerged (all_handed back (a ++ b)) un ∧ merges ho m (all_kept (λ r, back (length a + r)) b) [] m.
Proof.
  intros Hho Hm. destruct (c143_history _ _ _ _ _ Hho reach_new Hm) as (back & H1 & H2). exists back. split; [done|].
  apply merges_run in H2; [|done|done]. rewrite all_kept_app, fmap_app in H2.
  set (B := all_kept (λ r, back (length a + r)) b) in *.
  pose proof (c138_state _ _ _ (replicate (length B) ho) H2) as H3. apply run_merges.
  replace ((ho,.) <$> B) with (zip (replicate (length B) ho) ((ho,.) <$> B).*2); [apply H3|].
  - by rewrite replicate_length, fmap_length.
  - by apply Forall_replicate.
  - clear. induction B as [|s B IH]; [done|]. cbn. by rewrite IH.
Qed.

(** The command. *)
Lemma clean_any ho ho2 m sets un m' : hash_order_ok ho → hash_order_ok ho2 → reachable m →
  merges ho m sets un m' → un = [] → merges ho2 m sets [] m'.
Proof.
  intros Hho Hho2 Hr Hm. induction Hm as [m|m s m1 u sets un m' Hs Hm IH]; [constructor|].
  intros [-> ->]%app_eq_nil. pose proof (c17 m ho ho2 s Hr Hho Hho2) as (H1 & _ & H2). rewrite Hs in H1, H2. cbn [fst snd] in H1, H2.
  destruct H2 as [(a & b & H2 & H3 & H4)|(a & b & H2 & _)]; [|done].
  injection H2 as <-. apply Forall2_nil_inv_l in H4 as ->.
  change (@nil transaction_postings) with ([] ++ [] : list transaction_postings). eapply merges_cons.
  - rewrite (surjective_pairing (merge ho2 m s)). rewrite <- H1, H3. reflexivity.
  - apply IH; [|done]. change m1 with (m1, @Ok (list transaction_postings) []).1. rewrite <- Hs. by apply reach_merge.
Qed.
Lemma c143_command E ho inputs um output w tpss w0 es :
  hash_order_ok ho → journals E w inputs tpss w0 → writable E output → (∀ f, um = Some f → writable E f) →
  (um = Some Stdio → output ≠ Stdio) →
  merge_cmd E ho inputs um output w = (es, Ok tt) →
  ∃ un text back, holds w (steps w es) output text ∧ Forall2 returned_unmerged (all_handed back tpss) un ∧
    (∃ m, merges ho merger_new tpss un m) ∧
    ∀ ho2 inputs2 um2 output2 w2 w02, hash_order_ok ho2 → journals E w2 inputs2 (all_kept back tpss) w02 →
      writable E output2 → (∀ f, um2 = Some f → writable E f) →
      ∃ es2, merge_cmd E ho2 inputs2 um2 output2 w2 = (es2, Ok tt) ∧ holds w2 (steps w2 es2) output2 text ∧
        ∀ p, Path p ≠ output2 → same_file w2 (steps w2 es2) p.
Proof.
  intros Hho Hj Ho Hu Hio Hc.
  destruct (merges_dec ho tpss merger_new) as [(un & m & Hm)|Hn]; cycle 1.
  { destruct (c99_journals_failed _ _ _ _ _ _ _ _ _ _ Hho Hj ltac:(intros un m [Hm _]; by eapply Hn) Hc) as [[e [=]] _]. }
  destruct (decide (un = [] ∨ is_Some um)) as [Hd|Hd]; cycle 1.
  { destruct (c99_journals_failed E ho inputs um output w tpss w0 es (Ok tt) Hho Hj) as [[e [=]] _]; [|exact Hc].
    intros un' m' [Hm' Hx]. destruct (merges_fun _ _ _ _ _ _ _ Hm Hm') as [<- _]. done. }
  destruct (c99_journals _ _ _ _ _ _ _ _ _ _ Hho Hj Hm Hd Hu Ho) as (es' & un' & out & Hc' & Hb & _ & Hw & _).
  rewrite Hc in Hc'. injection Hc' as <-.
  destruct (c143_history _ _ _ _ _ Hho reach_new Hm) as (back & H1 & H2).
  exists un, (e_print E (into_ledger ho out)), back. split_and!; [|done|by exists m|].
  - apply Hw. destruct (decide (um = Some Stdio)) as [He|He]; [|by left]. right. right. by apply Hio.
  - intros ho2 inputs2 um2 output2 w2 w02 Hho2 Hj2 Ho2 Hu2.
    pose proof (clean_any _ _ _ _ _ _ Hho Hho2 reach_new H2 eq_refl) as H3.
    destruct (c99_journals _ _ _ _ _ _ _ _ _ _ Hho2 Hj2 H3 ltac:(by left) Hu2 Ho2) as (es2 & un2 & out2 & Hc2 & Hb2 & _ & Hw2 & _ & Hs2).
    exists es2. split; [done|]. assert (out2 = out) as ->.
    { assert (Hr : reachable m) by exact (merges_reachable _ _ _ _ _ Hho reach_new Hm).
      destruct (c17 m ho ho2 [] Hr Hho Hho2) as (_ & Hbb & _). rewrite Hb, Hb2 in Hbb. by injection Hbb. }
    rewrite (into_ledger_order ho2 ho) in Hw2 by done. split; [apply Hw2; by right; left|].
    intros p Hp. by apply Hs2.
Qed.

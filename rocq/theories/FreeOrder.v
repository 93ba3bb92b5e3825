(** Merging with an order of its own for every iteration. *)
From Verif Require Import Base Types CommentModel MergeModel CmdModel FreeOrderModel FreeClaims SpecBase BaseProofs MergeSpec MergeProofs MergePending
  MergeApply MergeBuild MergeClaims MergeClosed MergeLemmas MergePlaces MergeLaws MergeLaws2 MergeLaws4 PropsMergeProofs.
From Coq Require Import Lia.
Open Scope N_scope.

(** One order everywhere. *)
Section same.
  Context (ho : hash_order).
  Let os : orders := λ _, ho.
  Lemma add_candidates_same ip idxs : ∀ i, add_candidates_free os ip i idxs = add_candidates ho ip i idxs.
  Proof.
    induction idxs as [|x idxs IH]; intros i; cbn [add_candidates_free add_candidates]; [done|].
    destruct (posts_get ip x) as [h| |]; cbn [rbind]; [|done..]. change (now (at_ os 0)) with ho.
    destruct (primary_fingerprint _ _) as [f| |]; cbn [rbind]; [|done..]. apply IH.
  Qed.
  Lemma process_posts_same m d ps : ∀ seen acc, process_posts_free os m d seen acc ps = process_posts ho m d seen acc ps.
  Proof.
    induction ps as [|p ps IH]; intros seen acc; cbn [process_posts_free process_posts]; [done|].
    change (input_from_posting_internal_free (at_ os 0) p d) with (input_from_posting_internal ho p d).
    destruct (input_from_posting_internal ho p d) as [i| |]; cbn [rbind]; [|done..].
    change (now (at_ os 1)) with ho. destruct (see_fingerprints _ _) as [s| |]; cbn [rbind]; [|done..].
    assert (determine_posting_action_free (at_ os 2) m i = determine_posting_action ho m i) as ->.
    { unfold determine_posting_action_free, determine_posting_action. change (now (at_ (at_ os 2) 0)) with ho.
      destruct (find_matching_postings _ _ _) as [[[]|[]|]| |]; cbn [rbind]; try done.
      change (at_ (at_ os 2) 1) with os. by rewrite add_candidates_same. }
    destruct (determine_posting_action ho m i) as [[i' a]| |]; cbn [rbind]; [|done..]. apply IH.
  Qed.
  Lemma make_pending_same m tps : ∀ seen, make_pending_free os m seen tps = make_pending_from ho m seen tps.
  Proof.
    induction tps as [|tp tps IH]; intros seen; cbn [make_pending_free make_pending_from]; [done|].
    assert (to_transaction_merge_action_free (at_ os 0) m seen tp = to_transaction_merge_action ho m seen tp) as ->.
    { unfold to_transaction_merge_action_free, to_transaction_merge_action. destruct (tp_posts tp) as [|p ps]; [done|].
      change (at_ os 0) with os. by rewrite process_posts_same. }
    destruct (to_transaction_merge_action ho m seen tp) as [[s a]| |]; cbn [rbind]; [|done..].
    change (at_ os 1) with os. by rewrite IH.
  Qed.
  Lemma apply_posts_same dest posts : ∀ m, apply_post_actions_free os m dest posts = apply_post_actions ho m dest posts.
  Proof.
    induction posts as [|[i [|x]] posts IH]; intros m; cbn [apply_post_actions_free apply_post_actions]; [done|..];
      change (now (at_ os 0)) with ho; change (at_ os 1) with os.
    - destruct (posts_add _ _ _ _) as [ip [idx| |]]; [|done..]. destruct (trns_add_post _ _ _) as [it [[]| |]]; [|done..]. apply IH.
    - destruct (posts_merge_into _ _ _ _) as [ip [[]| |]]; [|done..]. apply IH.
  Qed.
  Lemma apply_pending_same pending : ∀ m, apply_pending_free os m pending = apply_pending ho m pending.
  Proof.
    induction pending as [|[trn posts|trn posts t|tp] pending IH]; intros m; cbn [apply_pending_free apply_pending]; [done|..];
      change (at_ os 0) with os; change (at_ os 1) with os.
    - destruct (trns_add _ _) as [it t]. rewrite apply_posts_same. destruct (apply_post_actions _ _ _ _) as [m' [[]| |]]; [|done..]. apply IH.
    - rewrite apply_posts_same. destruct (apply_post_actions _ _ _ _) as [m' [[]| |]]; [|done..]. apply IH.
    - by rewrite IH.
  Qed.
  Lemma merge_same m tps : merge_free os map_to_list m tps = merge ho m tps.
  Proof.
    unfold merge_free, merge, make_pending. change (at_ os 0) with os. change (at_ os 1) with os. rewrite make_pending_same.
    destruct (make_pending_from ho m ∅ tps) as [pending| |]; [|done..]. change (check_pending_free map_to_list m pending) with (check_pending m pending).
    destruct (check_pending m pending); [|done..]. apply apply_pending_same.
  Qed.
End same.

Lemma orders_ok_now os : orders_ok os → hash_order_ok (now os).
Proof. intros H. apply H. Qed.
Lemma orders_ok_at os n : orders_ok os → orders_ok (at_ os n).
Proof. intros H place. apply H. Qed.

Section pending.
  Context (m : merger) (j : journal) (Hrep : represents m j) (Hwf : journal_wf j).

  Lemma input_free_spec os p d : orders_ok os →
    (mergeable p ∧ input_from_posting_internal_free os p d = Ok (Input d p)) ∨
    (¬ mergeable p ∧ ∃ e, input_from_posting_internal_free os p d = Err e).
  Proof.
    intros Hos. assert (∀ ho ho' f (s : gset str), hash_order_ok ho → hash_order_ok ho' → existsb f (ho_set ho s) = existsb f (ho_set ho' s)) as Hex.
    { intros ho ho' f s H H'. destruct (existsb f (ho_set ho s)) eqn:E1, (existsb f (ho_set ho' s)) eqn:E2; try done.
      - apply (existsb_ho ho f s H) in E1. apply (existsb_ho ho' f s H') in E1. congruence.
      - apply (existsb_ho ho' f s H') in E2. apply (existsb_ho ho f s H) in E2. congruence. }
    unfold input_from_posting_internal_free.
    rewrite (Hex (now (at_ os 1)) (now (at_ os 0)) is_fingerprint) by apply Hos. apply (input_spec (now (at_ os 0)) p d), Hos.
  Qed.

  Lemma add_candidates_free_spec d idxs : (∀ i, i ∈ idxs → (i < length (j_posts j))%nat) →
    ∀ os p, orders_ok os → ∃ p', add_candidates_free os (m_posts m) (Input d p) idxs = Ok (Input d p') ∧
               candidates_added j idxs p p'.
  Proof using Hrep Hwf.
    induction idxs as [|i idxs IH]; intros H os p Hos; cbn [add_candidates_free].
    - exists p. split; [done|]. repeat split; try done. exists []. split; [constructor|set_solver].
    - destruct (lookup_lt_is_Some_2 (j_posts j) i) as [x Hx]; [apply H; left|].
      unfold posts_get. rewrite (rep_lookup m j Hrep), Hx. simpl.
      destruct (primary_spec (now (at_ os 0)) (orders_ok_now _ (orders_ok_at _ 0 Hos)) j Hwf x) as (f & -> & Hf); [by eapply elem_of_list_lookup_2|]. simpl.
      destruct (IH (λ i Hi, H i (elem_of_list_further _ _ _ Hi)) (at_ os 1)
                  (in_posting (input_add_tag (Input d p) (CANDIDATE_FP_PREFIX ++ f))) (orders_ok_at _ 1 Hos))
        as (p' & Hp' & Hraw & Hl & Hv & fs & Hfs & Ht).
      exists p'. split; [done|]. simpl in *. repeat split; try done.
      exists (f :: fs). split; [constructor; eauto|]. rewrite Ht, fmap_cons.
      rewrite list_to_set_cons. set_solver.
  Qed.

  Lemma determine_free_spec os d p : orders_ok os →
    ((length (fp_hits j p) ≤ 1)%nat ∧
      ∃ r, determine_posting_action_free os m (Input d p) = Ok r ∧ decided j d p r) ∨
    (¬ (length (fp_hits j p) ≤ 1)%nat ∧ determine_posting_action_free os m (Input d p) = Err EManyFingerprint).
  Proof using Hrep Hwf.
    intros Hos. set (ho := now (at_ os 0)). assert (hash_order_ok ho) as Hho by apply Hos.
    unfold determine_posting_action_free, find_matching_postings, find_posting_by_fingerprints, decided,
      lookup_posting. fold ho.
    pose proof (fp_lookup_perm ho Hho m j Hrep d p) as Hperm.
    pose proof (ms_collect_cases (omap (λ fp, post_by_fingerprint (m_posts m) !! fp)
        (fingerprints_from_comment ho (pi_comment (in_posting (Input d p)))))) as Hc.
    destruct (ms_collect _) as [|x|xs].
    - rewrite Hc in Hperm. apply Permutation_nil_l in Hperm as <-. left. split; [simpl; lia|].
      change (in_date (Input d p)) with d. rewrite (soft_lookup m j Hrep). cbn [rbind].
      pose proof (ms_collect_cases (soft_hits j d p)) as Hs.
      rewrite dedup_from_NoDup in Hs by apply NoDup_positions. simpl in Hs.
      destruct (ms_collect (soft_hits j d p)) as [|x|xs]; cbn [rbind].
      + rewrite Hs. eauto.
      + rewrite Hs. eauto.
      + destruct Hs as [Hs Hlen]. rewrite Hs.
        destruct (add_candidates_free_spec d xs) with (os := at_ os 1) (p := p) as (p' & -> & Hadd).
        { intros i Hi. rewrite <- Hs in Hi. by eapply positions_lt. }
        { by apply orders_ok_at. }
        cbn [rbind]. destruct xs as [|a [|b l]]; [simpl in Hlen; lia..|]. eauto.
    - rewrite Hc in Hperm. apply Permutation_singleton_l in Hperm. rewrite <- Hperm.
      left. split; [simpl; lia|]. cbn [rbind]. eauto.
    - destruct Hc as [Hc Hlen]. rewrite Hc in Hperm. right.
      rewrite (Permutation_length Hperm) in Hlen. split; [lia|]. cbn [rbind].
      assert (∃ hs, rmapM (posts_get (m_posts m)) xs = Ok hs) as [hs ->]; [|done].
      assert (∀ i, i ∈ xs → ∃ h, posts_get (m_posts m) i = Ok h) as Hget.
      { intros i Hi. rewrite Hperm in Hi. apply (elem_of_fp_hits j) in Hi as (y & Hy & _).
        unfold posts_get. rewrite (rep_lookup m j Hrep), Hy. simpl. eauto. }
      clear -Hget. induction xs as [|i xs IH]; simpl; [eauto|].
      destruct (Hget i) as [h ->]; [left|]. simpl.
      destruct IH as [hs ->]; [intros; apply Hget; by right|]. simpl. eauto.
  Qed.

  Lemma process_posts_free_spec d ps : ∀ os seen acc, orders_ok os →
    (seen_ok j seen ps ∧ ∃ rs, Forall2 (decided j d) ps rs ∧
      process_posts_free os m d seen acc ps =
      Ok (posts_fps ps ∪ seen, foldl (λ a r, acc_push a r.1 r.2) acc rs)) ∨
    (¬ seen_ok j seen ps ∧ ∃ e, process_posts_free os m d seen acc ps = Err e).
  Proof using Hrep Hwf.
    induction ps as [|p ps IH]; intros os seen acc Hos; cbn [process_posts_free seen_ok].
    - left. split; [done|]. exists []. split; [constructor|]. simpl. repeat f_equal.
      unfold posts_fps. simpl. set_solver.
    - destruct (input_free_spec (at_ os 0) p d (orders_ok_at _ _ Hos)) as [[Hm ->]|[Hm [e ->]]]; cbn [rbind]; [|right; naive_solver].
      set (ho := now (at_ os 1)). assert (hash_order_ok ho) as Hho by apply Hos.
      destruct (see_spec ho Hho m j Hrep Hwf seen (fingerprints_from_comment ho (pi_comment p))
                  (NoDup_fingerprints ho _ Hho)) as [[Hs Hsee]|[Hs Hsee]];
        change (in_posting (Input d p)) with p; rewrite Hsee; cbn [rbind].
      2:{ right. split; [|eauto]. intros (_ & Hd & _). apply Hs. intros f Hf.
          apply (elem_of_fingerprints ho _ f Hho) in Hf. apply elem_of_fps in Hf. set_solver. }
      assert (list_to_set (fingerprints_from_comment ho (pi_comment p)) = fps_of p) as Hfps.
      { apply set_eq. intros f. rewrite elem_of_list_to_set, (elem_of_fingerprints ho _ f Hho).
        by rewrite elem_of_fps. }
      destruct (determine_free_spec (at_ os 2) d p (orders_ok_at _ _ Hos)) as [[Hlen (r & -> & Hr)]|[Hlen ->]]; cbn [rbind].
      2:{ right. naive_solver. }
      rewrite Hfps. destruct r as [i a].
      destruct (IH (at_ os 3) (fps_of p ∪ seen) (acc_push acc i a) (orders_ok_at _ _ Hos)) as [(Hok & rs & Hrs & ->)|[Hok [e ->]]].
      + left. split; [split_and!; try done|].
        { intros f Hf. apply elem_of_fps in Hf. apply (Hs f).
          by apply (elem_of_fingerprints ho _ f Hho). }
        exists ((i, a) :: rs). split; [by constructor|].
        replace (posts_fps (p :: ps) ∪ seen) with (posts_fps ps ∪ (fps_of p ∪ seen))
          by (rewrite posts_fps_cons; set_solver).
        done.
      + right. naive_solver.
  Qed.

  Lemma to_action_free_spec os seen tp : orders_ok os →
    (seen_ok j seen (tp_posts tp) ∧ one_trn j tp ∧ ∃ a, action_for j tp a ∧
       to_transaction_merge_action_free os m seen tp = Ok (posts_fps (tp_posts tp) ∪ seen, a)) ∨
    (¬ (seen_ok j seen (tp_posts tp) ∧ one_trn j tp) ∧
       ∃ e, to_transaction_merge_action_free os m seen tp = Err e).
  Proof using Hrep Hwf.
    intros Hos. unfold to_transaction_merge_action_free, action_for, one_trn.
    destruct (tp_posts tp) as [|p0 ps0] eqn:Eps.
    - left. split; [done|]. unfold left_out. rewrite Eps. split; [done|].
      exists (TLeave tp). split; [exists tp; split; [done|by apply returned_as_self]|].
      repeat f_equal. unfold posts_fps. simpl. set_solver.
    - rewrite <- Eps.
      change (t_date (ti_raw (tp_trn tp))) with (tp_date tp).
      destruct (process_posts_free_spec (tp_date tp) (tp_posts tp) os seen (MActions []) Hos)
        as [(Hok & rs & Hrs & ->)|[Hok [e ->]]]; cbn [rbind].
      2:{ right. naive_solver. }
      rewrite (acc_push_actions j (tp_date tp) (tp_posts tp) rs [] Hrs).
      assert (left_out j tp = existsb is_ambiguous (lookup_posting j (tp_date tp) <$> tp_posts tp)) as El.
      { unfold left_out, verdicts. by rewrite Eps. }
      rewrite <- El. destruct (left_out j tp) eqn:El2.
      + left. split; [done|]. split; [done|]. eexists. split; [|done].
        eexists. split; [done|]. split; [done|]. simpl.
        clear -Hrs. induction Hrs as [|p r ps rs Hr Hrs IH]; csimpl; [constructor|].
        constructor; [|done]. unfold decided in Hr.
        destruct (lookup_posting j (tp_date tp) p); simplify_eq; try done.
        destruct Hr as (p' & -> & Hc). done.
      + change (lookup_posting j (tp_date tp) <$> tp_posts tp) with (verdicts j tp). simpl app.
        destruct (find_dest_spec (now os) (orders_ok_now _ Hos) m j Hrep Hwf tp (tp_date tp)) as [[Hone ->]|[Hone ->]]; cbn [rbind].
        * left. split; [done|]. split; [done|]. eexists. split; [done|].
          destruct (dest_trns j tp); done.
        * right. split; [|eauto]. naive_solver.
  Qed.

  Lemma make_pending_free_spec tps : ∀ os seen, orders_ok os →
    (set_ok j seen tps ∧ ∃ pending, Forall2 (action_for j) tps pending ∧
       make_pending_free os m seen tps = Ok pending) ∨
    (¬ set_ok j seen tps ∧ ∃ e, make_pending_free os m seen tps = Err e).
  Proof using Hrep Hwf.
    induction tps as [|tp tps IH]; intros os seen Hos; cbn [make_pending_free set_ok].
    - left. split; [done|]. exists []. split; [constructor|done].
    - destruct (to_action_free_spec (at_ os 0) seen tp (orders_ok_at _ _ Hos)) as [(H1 & H2 & a & Ha & ->)|[H1 [e ->]]]; cbn [rbind].
      2:{ right. naive_solver. }
      destruct (IH (at_ os 1) (posts_fps (tp_posts tp) ∪ seen) (orders_ok_at _ _ Hos)) as [(H3 & l & Hl & ->)|[H3 [e ->]]]; cbn [rbind].
      + left. split; [done|]. exists (a :: l). split; [by constructor|done].
      + right. naive_solver.
  Qed.

  Lemma entries_valid tps pending x k : Forall2 (action_for j) tps pending → sources_by_dest pending !! x = Some k → (x < length (j_posts j))%nat.
  Proof.
    intros Hf Hin. rewrite sources_by_dest_flat in Hin. pose proof (pairs_of_actions j _ _ Hf) as Hp.
    assert (x ∈ all_dests j tps) as Hx.
    { rewrite <- Hp. clear -Hin.
      assert (∀ l (mp : gmap nat (list input)) x k,
        foldl (λ mp '(x, i), push_entry x i mp) mp l !! x = Some k → x ∈ l.*1 ∨ is_Some (mp !! x)) as H.
      { induction l as [|[y i] l IH]; intros mp x' k' E; simpl in *; [by eauto|].
        apply IH in E as [E|E]; [left; by right|]. unfold push_entry in E.
        destruct (decide (y = x')) as [->|]; [left; by left|]. rewrite lookup_insert_ne in E by done. by right. }
      apply H in Hin as [?|Hin]; [done|]. rewrite lookup_empty in Hin. by destruct Hin. }
    unfold all_dests in Hx. apply elem_of_list_bind in Hx as (tp & Hx & _).
    destruct (left_out j tp); [by apply elem_of_nil in Hx|]. by eapply dests_valid.
  Qed.
  Lemma check_pending_free_spec listed tps pending : (∀ mp, listed mp ≡ₚ map_to_list mp) → Forall2 (action_for j) tps pending →
    check_pending_free listed m pending = check_pending m pending.
  Proof using Hrep.
    intros Hl Hf. unfold check_pending_free, check_pending.
    assert (∀ l, l ≡ₚ map_to_list (sources_by_dest pending) → ∀ x k, (x, k) ∈ l → (x < length (j_posts j))%nat) as Hv.
    { intros l El x k Hin. rewrite El in Hin. apply elem_of_map_to_list in Hin. by eapply entries_valid. }
    destruct (check_entries_spec m j Hrep (listed (sources_by_dest pending)) (Hv _ (Hl _))) as [[H1 ->]|[H1 ->]];
    destruct (check_entries_spec m j Hrep (map_to_list (sources_by_dest pending)) (Hv _ (reflexivity _))) as [[H2 ->]|[H2 ->]]; try done.
    - destruct H2. by rewrite <- Hl.
    - destruct H1. by rewrite Hl.
  Qed.
End pending.

(** The second half never fails on what the first half lets through, and then the order
    does not matter. *)
Lemma register_perm l l' i : l ≡ₚ l' → ∀ m m', register_fingerprints l i m = (m', Ok tt) → register_fingerprints l' i m = (m', Ok tt).
Proof.
  induction 1 as [|f l l' H IH|f g l|l1 l2 l3 H1 IH1 H2 IH2]; intros m m'; cbn [register_fingerprints]; [done|..].
  - destruct (m !! f) as [k|]; [destruct (decide (k = i)); [|done]|]; apply IH.
  - destruct (decide (f = g)) as [->|Hne]; [done|].
    destruct (m !! f) as [a|] eqn:Ef, (m !! g) as [b|] eqn:Eg; rewrite ?lookup_insert_ne, ?Ef, ?Eg by done;
      repeat case_decide; try done. by rewrite insert_commute.
  - eauto.
Qed.
Lemma fps_perm ho ho' c : hash_order_ok ho → hash_order_ok ho' → fingerprints_from_comment ho c ≡ₚ fingerprints_from_comment ho' c.
Proof. intros (H & _) (H' & _). unfold fingerprints_from_comment. by rewrite H, H'. Qed.
Lemma posts_add_order ho ho' ip i t ip' idx : hash_order_ok ho → hash_order_ok ho' →
  posts_add ho ip i t = (ip', Ok idx) → posts_add ho' ip i t = (ip', Ok idx).
Proof.
  intros H H'. unfold posts_add. destruct (register_fingerprints (fingerprints_from_comment ho _) _ _) as [mp [[]| |]] eqn:E; [|done..].
  by rewrite (register_perm _ _ _ (fps_perm ho ho' _ H H') _ _ E).
Qed.
Lemma posts_merge_order ho ho' ip x i ip' : hash_order_ok ho → hash_order_ok ho' →
  posts_merge_into ho ip x i = (ip', Ok tt) → posts_merge_into ho' ip x i = (ip', Ok tt).
Proof.
  intros H H'. unfold posts_merge_into. destruct (register_fingerprints (fingerprints_from_comment ho _) _ _) as [mp [[]| |]] eqn:E; [|done..].
  by rewrite (register_perm _ _ _ (fps_perm ho ho' _ H H') _ _ E).
Qed.
Lemma apply_posts_order ho dest posts : hash_order_ok ho → ∀ os m m', orders_ok os →
  apply_post_actions ho m dest posts = (m', Ok tt) → apply_post_actions_free os m dest posts = (m', Ok tt).
Proof.
  intros H. induction posts as [|[i [|x]] posts IH]; intros os m m' Hos; cbn [apply_post_actions_free apply_post_actions]; [done|..].
  - destruct (posts_add ho _ _ _) as [ip [idx| |]] eqn:E; [|done..].
    rewrite (posts_add_order ho (now (at_ os 0)) _ _ _ _ _ H (Hos _) E).
    destruct (trns_add_post _ _ _) as [it [[]| |]]; [|done..]. apply IH. by apply orders_ok_at.
  - destruct (posts_merge_into ho _ _ _) as [ip [[]| |]] eqn:E; [|done..].
    rewrite (posts_merge_order ho (now (at_ os 0)) _ _ _ _ H (Hos _) E). apply IH. by apply orders_ok_at.
Qed.
Lemma apply_pending_order ho pending : hash_order_ok ho → ∀ os m m' un, orders_ok os →
  apply_pending ho m pending = (m', Ok un) → apply_pending_free os m pending = (m', Ok un).
Proof.
  intros H. induction pending as [|[trn posts|trn posts t|tp] pending IH]; intros os m m' un Hos; cbn [apply_pending_free apply_pending]; [done|..].
  - destruct (trns_add _ _) as [it t]. destruct (apply_post_actions ho _ _ _) as [m1 [[]| |]] eqn:E; [|done..].
    rewrite (apply_posts_order ho _ _ H (at_ os 0) _ _ (orders_ok_at _ _ Hos) E). apply IH. by apply orders_ok_at.
  - destruct (apply_post_actions ho _ _ _) as [m1 [[]| |]] eqn:E; [|done..].
    rewrite (apply_posts_order ho _ _ H (at_ os 0) _ _ (orders_ok_at _ _ Hos) E). apply IH. by apply orders_ok_at.
  - destruct (apply_pending ho m pending) as [m1 [un1| |]] eqn:E; [|done..].
    by rewrite (IH (at_ os 1) _ _ _ (orders_ok_at _ _ Hos) E).
Qed.

Lemma merge_free_cases os listed m j tps : orders_ok os → (∀ mp, listed mp ≡ₚ map_to_list mp) → represents m j → journal_wf j →
  (valid_set j tps ∧ ∃ m' un, merge_free os listed m tps = (m', Ok un) ∧ represents m' (spec_merge j tps) ∧
     Forall2 (returned_as j) (filter (λ tp, left_out j tp = true) tps) un) ∨
  (¬ valid_set j tps ∧ ∃ e, merge_free os listed m tps = (m, Err e)).
Proof.
  intros Hos Hl Hrep Hwf. set (ho := now os). assert (hash_order_ok ho) as Hho by apply Hos.
  pose proof (valid_set_iff ho Hho m j Hrep Hwf tps) as Hv. unfold merge_free.
  destruct (make_pending_free_spec m j Hrep Hwf tps (at_ os 0) ∅ (orders_ok_at _ _ Hos)) as [(Hok & pending & Hp & ->)|[Hn [e ->]]].
  - rewrite (check_pending_free_spec m j Hrep listed tps pending Hl Hp).
    destruct (check_pending_spec m j Hrep tps pending Hp) as [[Hnd ->]|[Hnd ->]].
    + left. assert (valid_set j tps) as Hvs by by apply Hv. split; [done|].
      destruct (apply_pending_sim ho Hho j tps pending Hp m j) as (_ & m' & un & E & Hr & Hun); try done. { by apply initial_todo. }
      exists m', un. split; [|done]. apply (apply_pending_order ho); [done|by apply orders_ok_at|done].
    + right. split; [|eauto]. intros X%Hv. by destruct X.
  - right. split; [|eauto]. intros X%Hv. by destruct X.
Qed.

Lemma merge_free_order m os listed ho tps : reachable m → orders_ok os → (∀ mp, listed mp ≡ₚ map_to_list mp) → hash_order_ok ho →
  (merge_free os listed m tps).1 = (merge ho m tps).1 ∧
  ((∃ un un', (merge_free os listed m tps).2 = Ok un ∧ (merge ho m tps).2 = Ok un' ∧ Forall2 equal_but_candidates un un') ∨
   (∃ e e', (merge_free os listed m tps).2 = Err e ∧ (merge ho m tps).2 = Err e')).
Proof.
  intros Hr Hos Hl Hho. destruct (reachable_represents m Hr) as (j & Hj & _). pose proof (reachable_wf m j Hr Hj) as Hwf.
  destruct (merge ho m tps) as [m2 r2] eqn:E2.
  destruct (merge_free_cases os listed m j tps Hos Hl Hj Hwf) as [(Hv & m1 & un & -> & Hr1 & HU)|(Hn & e & ->)]; cbn [fst snd];
  destruct (merge_cases ho m j tps m2 _ Hho Hj Hwf E2) as [(Hv' & ? & Hr2 & un' & -> & HU')|(Hn' & -> & e' & ->)]; try done.
  - split; [by eapply represents_merger|]. left. exists un, un'. split_and!; try done. eapply Forall2_agree; [|exact HU|exact HU'].
    intros. by eapply returned_as_agree.
  - split; [done|]. right. eauto.
Qed.

Lemma merge_free_reachable m os listed tps :
  reachable m → orders_ok os → (∀ mp, listed mp ≡ₚ map_to_list mp) → reachable (merge_free os listed m tps).1.
Proof.
  intros Hm Hos Hl. rewrite (proj1 (merge_free_order m os listed default_order tps Hm Hos Hl default_order_ok)).
  exact (reach_merge m default_order tps Hm default_order_ok).
Qed.

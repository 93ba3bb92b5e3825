(** Merging transactions whose postings and headers are related gives related results,
    for every relation that keeps what merging looks at. *)
From Verif Require Import Base Types CommentModel MergeModel SpecBase BaseProofs HeaderClaims HeaderLaws PostLaws.
From Coq Require Import Lia.
Local Open Scope nat_scope.

Section rel.
Context (T : transaction_internal → transaction_internal → Prop) (R : posting_internal → posting_internal → Prop).
Context (T_day : ∀ t t', T t t' → t_date (ti_raw t') = t_date (ti_raw t)).
Context (R_tags : ∀ p p', R p p' → tags (pi_comment p') = tags (pi_comment p)).
Context (R_matches : ∀ p p' q q', R p p' → R q q' → matches p' q' = matches p q).
Context (R_merge : ∀ p p' q q', R p p' → R q q' → R (merge_posting p q) (merge_posting p' q')).
Context (R_tag : ∀ p p' t, R p p' → R (PI (pi_raw p) (set_tags (λ s, {[t]} ∪ s) (pi_comment p))) (PI (pi_raw p') (set_tags (λ s, {[t]} ∪ s) (pi_comment p')))).

Definition trn_rel (tp tp' : transaction_postings) : Prop := T (tp_trn tp) (tp_trn tp') ∧ Forall2 R (tp_posts tp) (tp_posts tp').
Lemma R_fps ho p p' : R p p' → fingerprints_from_comment ho (pi_comment p') = fingerprints_from_comment ho (pi_comment p).
Proof. intros H. unfold fingerprints_from_comment. by rewrite (R_tags _ _ H). Qed.
Definition rel_pholder (h h' : post_holder) : Prop := ph_parent h' = ph_parent h ∧ R (ph_posting h) (ph_posting h').
Definition rel_ip (ip ip' : indexed_postings) : Prop :=
  Forall2 rel_pholder (post_arena ip) (post_arena ip') ∧ posts_by_date ip' = posts_by_date ip ∧ post_by_fingerprint ip' = post_by_fingerprint ip.
Definition rel_input (i i' : input) : Prop := in_date i' = in_date i ∧ R (in_posting i) (in_posting i').
Definition rel_m (m m' : merger) : Prop := rel_ip (m_posts m) (m_posts m') ∧ trns_alike T (m_trns m) (m_trns m').
Definition rel_act (x x' : input * post_action) : Prop := rel_input x.1 x'.1 ∧ x'.2 = x.2.
Definition rel_acc (a a' : merge_actions) : Prop :=
  match a, a' with
  | MActions l, MActions l' => Forall2 rel_act l l'
  | MLeave l, MLeave l' => Forall2 rel_input l l'
  | _, _ => False
  end.
Inductive rel_taction : trn_action → trn_action → Prop :=
  | ta_new t t' ps ps' : T t t' → Forall2 rel_act ps ps' → rel_taction (TNew t ps) (TNew t' ps')
  | ta_merge t t' ps ps' d : T t t' → Forall2 rel_act ps ps' → rel_taction (TMergeInto t ps d) (TMergeInto t' ps' d)
  | ta_leave tp tp' : trn_rel tp tp' → rel_taction (TLeave tp) (TLeave tp').

Lemma rel_add_tag i i' t : rel_input i i' → rel_input (input_add_tag i t) (input_add_tag i' t).
Proof. intros [Hd H]. split; [done|]. by apply R_tag. Qed.

(** ** Lookup *)
Lemma rel_posts_get ip ip' x : rel_ip ip ip' → result_alike rel_pholder (posts_get ip x) (posts_get ip' x).
Proof.
  intros [H _]. unfold posts_get. apply Forall2_lookup with (i := x) in H. by inversion H.
Qed.
Lemma rel_soft_filter ip ip' i i' idxs : rel_ip ip ip' → rel_input i i' → soft_filter ip' i' idxs = soft_filter ip i idxs.
Proof.
  intros Hip Hi. induction idxs as [|x idxs IH]; [done|]. cbn [soft_filter]. rewrite IH.
  apply eq_alike, (rbind_alike rel_pholder); [by apply rel_posts_get|]. intros h h' [_ Hh]. apply alike_eq.
  destruct (soft_filter ip i idxs); [|done..]. cbn [rbind]. destruct Hi as [_ Hi]. by rewrite (R_matches _ _ _ _ Hh Hi).
Qed.
Lemma rel_find ho ip ip' i i' : rel_ip ip ip' → rel_input i i' → find_matching_postings ho ip' i' = find_matching_postings ho ip i.
Proof.
  intros Hip Hi. pose proof Hip as (_ & Hd & Hf). pose proof Hi as [Hid Hp]. unfold find_matching_postings, find_posting_by_fingerprints.
  rewrite Hf, (R_fps ho _ _ Hp), Hd, Hid, (rel_soft_filter ip ip' i i'); done.
Qed.
Lemma rel_candidates ho ip ip' i i' idxs : rel_ip ip ip' → rel_input i i' →
  result_alike rel_input (add_candidates ho ip i idxs) (add_candidates ho ip' i' idxs).
Proof.
  intros Hip. revert i i'. induction idxs as [|x idxs IH]; intros i i' Hi; [done|]. cbn [add_candidates].
  apply (rbind_alike rel_pholder); [by apply rel_posts_get|]. intros h h' [_ Hh]. apply (rbind_alike (λ x x', x' = x)).
  - apply alike_eq. unfold primary_fingerprint. by rewrite (R_fps ho _ _ Hh).
  - intros f ? ->. by apply IH, rel_add_tag.
Qed.
Lemma rel_get_all ip ip' xs : rel_ip ip ip' → result_alike (Forall2 rel_pholder) (rmapM (posts_get ip) xs) (rmapM (posts_get ip') xs).
Proof.
  intros H. induction xs as [|x xs IH]; [constructor|]. cbn [rmapM]. apply (rbind_alike rel_pholder); [by apply rel_posts_get|].
  intros h h' Hh. apply (rbind_alike _ _ _ _ _ _ IH). intros l l' Hl. by constructor.
Qed.
Lemma rel_determine ho m m' i i' : rel_m m m' → rel_input i i' →
  result_alike (λ x x', rel_input x.1 x'.1 ∧ x'.2 = x.2) (determine_posting_action ho m i) (determine_posting_action ho m' i').
Proof.
  intros [Hip _] Hi. unfold determine_posting_action. rewrite (rel_find ho (m_posts m) (m_posts m') i i' Hip Hi).
  destruct (find_matching_postings _ _ _) as [[[x|xs]|[x|xs]|]| |]; [..|done|done]; cbn [rbind]; try done.
  - apply (rbind_alike _ _ _ _ _ _ (rel_get_all _ _ xs Hip)). done.
  - apply (rbind_alike _ _ _ _ _ _ (rel_candidates ho _ _ _ _ xs Hip Hi)). done.
Qed.
Lemma rel_acc_push a a' i i' o : rel_acc a a' → rel_input i i' → rel_acc (acc_push a i o) (acc_push a' i' o).
Proof.
  intros Ha Hi. destruct a as [l|l], a' as [l'|l']; cbn in Ha; try done; cbn [acc_push].
  - destruct o as [o|]; cbn.
    + apply Forall2_app; [done|]. apply List.Forall2_cons; [by split|constructor].
    + apply Forall2_app; [|apply List.Forall2_cons; [done|constructor]]. clear -Ha. induction Ha as [|x x' l l' [Hx _] H IH]; [constructor|].
      by apply List.Forall2_cons.
  - cbn. apply Forall2_app; [done|]. apply List.Forall2_cons; [done|constructor].
Qed.
Lemma rel_input_of ho p p' d : R p p' → result_alike rel_input (input_from_posting_internal ho p d) (input_from_posting_internal ho p' d).
Proof.
  intros Hp. unfold input_from_posting_internal. rewrite (R_tags _ _ Hp). destruct (existsb is_candidate (ho_set ho (tags (pi_comment p)))), (existsb is_fingerprint (ho_set ho (tags (pi_comment p)))); done.
Qed.
Lemma rel_process_posts ho m m' d seen a a' ps ps' : rel_m m m' → rel_acc a a' → Forall2 R ps ps' →
  result_alike (λ x x', x'.1 = x.1 ∧ rel_acc x.2 x'.2) (process_posts ho m d seen a ps) (process_posts ho m' d seen a' ps').
Proof.
  intros Hm Ha H. revert seen a a' Ha. induction H as [|p p' ps ps' Hp H IH]; intros seen a a' Ha; [done|]. cbn [process_posts].
  apply (rbind_alike rel_input); [by apply rel_input_of|]. intros i i' Hi. apply (rbind_alike (λ x x', x' = x)).
  - apply alike_eq. destruct Hi as [_ Hi]. by rewrite (R_fps ho _ _ Hi).
  - intros s ? ->. apply (rbind_alike _ _ _ _ _ _ (rel_determine ho m m' i i' Hm Hi)). intros [j o] [j' o'] [Hj E]. cbn [fst snd] in *. subst o'.
    apply IH. by apply rel_acc_push.
Qed.

(** ** Actions *)
Lemma rel_dests ps ps' : Forall2 rel_act ps ps' → action_dests ps' = action_dests ps.
Proof.
  unfold action_dests. induction 1 as [|[i a] [i' a'] ps ps' [_ E] H IH]; [done|]. cbn [snd] in E. subst a'. cbn. by rewrite IH.
Qed.
Lemma rel_parents ip ip' xs : rel_ip ip ip' →
  rmapM (λ x, rmap ph_parent (posts_get ip' x)) xs = rmapM (λ x, rmap ph_parent (posts_get ip x)) xs.
Proof.
  intros H. induction xs as [|x xs IH]; [done|]. cbn [rmapM]. rewrite IH. f_equal.
  pose proof (rel_posts_get ip ip' x H) as Hg. destruct (posts_get ip x) as [h| |], (posts_get ip' x) as [h'| |]; cbn in *; try done; [|congruence].
  destruct Hg as [-> _]. done.
Qed.
Lemma rel_dest_trn m m' ps ps' : rel_m m m' → Forall2 rel_act ps ps' → find_existing_dest_trn m' ps' = find_existing_dest_trn m ps.
Proof.
  intros [Hip Ht] Hps. unfold find_existing_dest_trn. rewrite (rel_dests _ _ Hps), (rel_parents _ _ _ Hip).
  destruct (rmapM _ (action_dests ps)) as [parents| |]; [|done..]. cbn [rbind].
  destruct (elements _) as [|t [|t2 ts]]; [done..|].
  assert (∀ l, rbind (rmapM (λ t, match trn_arena (m_trns m') !! t with Some h => Ok h | None => Panic end) l) (λ _, Err EManyTransactions) =
    rbind (rmapM (λ t, match trn_arena (m_trns m) !! t with Some h => Ok h | None => Panic end) l) (λ _, Err (A := option nat) EManyTransactions)) as Hl; [|apply Hl].
  induction l as [|x l IH]; [done|]. cbn [rmapM].
  destruct (trns_lookup _ _ _ x Ht) as [(h & h' & -> & -> & _)|[-> ->]]; [|done]. cbn [rbind].
  destruct (rmapM _ l) as [a| |], (rmapM (λ t, match trn_arena (m_trns m) !! t with _ => _ end) l) as [b| |]; cbn [rbind] in *; done.
Qed.
Lemma rel_taction_of ho m m' seen tp tp' : rel_m m m' → trn_rel tp tp' →
  result_alike (λ x x', x'.1 = x.1 ∧ rel_taction x.2 x'.2)
    (to_transaction_merge_action ho m seen tp) (to_transaction_merge_action ho m' seen tp').
Proof.
  intros Hm Hs. pose proof Hs as [Hd0 Hp]. pose proof (T_day _ _ Hd0) as Hd. unfold to_transaction_merge_action. rewrite Hd.
  destruct (tp_posts tp) as [|p ps].
  { inversion Hp. split; [done|]. by constructor. }
  inversion Hp as [|? p' ? ps' Hp1 Hps E1 E2]. clear E1. clear dependent l. clear dependent x. apply (rbind_alike (λ x x', x'.1 = x.1 ∧ rel_acc x.2 x'.2)).
  { apply rel_process_posts; [done|constructor|by constructor]. }
  intros [s a] [s' a'] [Es Ha]. cbn [fst snd] in *. subst s'. destruct a as [l|l], a' as [l'|l']; cbn in Ha; try done.
  - rewrite (rel_dest_trn m m' l l' Hm Ha). destruct (find_existing_dest_trn m l) as [[t|]| |]; [| |done..]; cbn [rbind]; (split; [done|]); by constructor.
  - split; [done|]. cbn [snd]. constructor. split; [done|]. cbn. clear -Ha. induction Ha as [|i i' l l' [_ Hi] H IH]; [constructor|].
    by apply List.Forall2_cons.
Qed.
Lemma rel_pending_eq ho m m' seen tps tps' : rel_m m m' → Forall2 trn_rel tps tps' →
  result_alike (Forall2 rel_taction) (make_pending_from ho m seen tps) (make_pending_from ho m' seen tps').
Proof.
  intros Hs H. revert seen. induction H as [|tp tp' tps tps' Ht H IH]; intros seen; [constructor|]. cbn [make_pending_from].
  apply (rbind_alike _ _ _ _ _ _ (rel_taction_of ho m m' seen tp tp' Hs Ht)). intros [s a] [s' a'] [Es Ha]. cbn [fst snd] in *. subst s'.
  apply (rbind_alike _ _ _ _ _ _ (IH s)). intros l l' Hl. by constructor.
Qed.

(** ** The check for two sources with one destination *)
Lemma rel_push_entry_length (mp mp' : gmap nat (list input)) x i i' : length <$> mp' = length <$> mp →
  length <$> push_entry x i' mp' = length <$> push_entry x i mp.
Proof.
  intros H. unfold push_entry. rewrite !fmap_insert, H. f_equal. rewrite !app_length. f_equal.
  assert (length <$> mp' !! x = length <$> mp !! x) as E by (rewrite <- !lookup_fmap; by rewrite H).
  destruct (mp' !! x), (mp !! x); cbn in *; congruence.
Qed.
Lemma rel_sources_eq l l' : Forall2 rel_taction l l' → length <$> sources_by_dest l' = length <$> sources_by_dest l.
Proof.
  unfold sources_by_dest. intros H. generalize (eq_refl (length <$> (∅ : gmap nat (list input)))).
  generalize (∅ : gmap nat (list input)) at 1 3. generalize (∅ : gmap nat (list input)). intros mp mp' Hmp.
  revert mp mp' Hmp. induction H as [|a a' l l' Ha H IH]; intros mp mp' Hmp; [done|]. cbn [foldl]. apply IH.
  destruct Ha as [| t t' ps ps' d _ Hps|]; [done| |done]. clear -Hps Hmp. revert mp mp' Hmp.
  induction Hps as [|[i a] [i' a'] ps ps' [Hi E] H IH]; intros mp mp' Hmp; [done|]. cbn [foldl]. cbn [snd] in E. subst a'. apply IH.
  destruct a; [done|]. by apply rel_push_entry_length.
Qed.
Lemma rel_check_entries_eq m m' es es' : rel_ip (m_posts m) (m_posts m') → prod_map id length <$> es' = prod_map id length <$> es →
  check_entries m' es' = check_entries m es.
Proof.
  intros Hip. revert es'. induction es as [|[x srcs] es IH]; intros [|[x' srcs'] es'] E; csimpl in E; [done|discriminate E|discriminate E|].
  injection E as E1 E2 E3. cbn [check_entries]. change (x' = x) in E1. subst x'. rewrite E2, (IH _ E3). destruct (1 <? length srcs)%nat; [|done].
  pose proof (rel_posts_get _ _ x Hip) as Hg. destruct (posts_get (m_posts m) x), (posts_get (m_posts m') x); cbn in *; try done. congruence.
Qed.
Lemma rel_check_eq m m' l l' : rel_m m m' → Forall2 rel_taction l l' → check_pending m' l' = check_pending m l.
Proof.
  intros [Hip _] H. unfold check_pending. apply rel_check_entries_eq; [done|]. by rewrite <- !to_list_fmap_exact, (rel_sources_eq _ _ H).
Qed.

(** ** Applying *)
Definition rel_step {A} (x x' : indexed_postings * result A) : Prop := rel_ip x.1 x'.1 ∧ x'.2 = x.2.
Lemma rel_posts_add ho ip ip' i i' d : rel_ip ip ip' → rel_input i i' → rel_step (posts_add ho ip i d) (posts_add ho ip' i' d).
Proof.
  intros (Ha & Hd & Hf) [Hid Hp]. unfold posts_add. rewrite (Forall2_length _ _ _ Ha), Hd, Hf, Hid, (R_fps ho _ _ Hp).
  assert (Forall2 rel_pholder (post_arena ip ++ [PostHolder d (in_posting i)]) (post_arena ip' ++ [PostHolder d (in_posting i')])) as H.
  { apply Forall2_app; [done|]. apply List.Forall2_cons; [by split|constructor]. }
  destruct (register_fingerprints _ _ _) as [mp [|e|]]; by split.
Qed.
Lemma rel_posts_merge ho ip ip' i i' x : rel_ip ip ip' → rel_input i i' → rel_step (posts_merge_into ho ip x i) (posts_merge_into ho ip' x i').
Proof.
  intros (Ha & Hd & Hf) [Hid Hp]. unfold posts_merge_into. rewrite Hd, Hf, (R_fps ho _ _ Hp).
  destruct (register_fingerprints _ _ _) as [mp [|e|]]; [|by split..].
  pose proof Ha as Hx. apply Forall2_lookup with (i := x) in Hx. inversion Hx as [h h' [Hpar Hh] E1 E2|]; [|by split].
  split; [|done]. cbn [fst]. split; [|done]. cbn [post_arena]. apply Forall2_insert; [done|]. split; cbn; [done|]. by apply R_merge.
Qed.
Lemma rel_apply_posts ho m m' d ps ps' : rel_m m m' → Forall2 rel_act ps ps' →
  rel_m (apply_post_actions ho m d ps).1 (apply_post_actions ho m' d ps').1 ∧
  (apply_post_actions ho m' d ps').2 = (apply_post_actions ho m d ps).2.
Proof.
  intros Hm H. revert m m' Hm. induction H as [|[i a] [i' a'] ps ps' [Hi E] H IH]; intros m m' Hm; [done|]. cbn [fst snd] in Hi, E. subst a'.
  destruct Hm as [Hp Ht]. destruct a as [|x]; cbn [apply_post_actions].
  - destruct (rel_posts_add ho _ _ i i' d Hp Hi) as [H1 H2].
    destruct (posts_add ho (m_posts m) i d) as [ip r], (posts_add ho (m_posts m') i' d) as [ip' r']. cbn [fst snd] in *. subst r'.
    destruct r as [idx| |]; [|done..]. destruct (add_post_alike _ _ _ d idx Ht) as [Ha Hr].
    destruct (trns_add_post (m_trns m) d idx) as [it r], (trns_add_post (m_trns m') d idx) as [it' r'].
    cbn [fst snd] in *. subst r'. destruct r; [|done..]. by apply IH.
  - destruct (rel_posts_merge ho _ _ i i' x Hp Hi) as [H1 H2].
    destruct (posts_merge_into ho (m_posts m) x i) as [ip r], (posts_merge_into ho (m_posts m') x i') as [ip' r']. cbn [fst snd] in *. subst r'.
    destruct r as [[]| |]; [|done..]. by apply IH.
Qed.
Lemma rel_apply_eq ho m m' l l' : rel_m m m' → Forall2 rel_taction l l' →
  rel_m (apply_pending ho m l).1 (apply_pending ho m' l').1 ∧
  result_alike (Forall2 trn_rel) (apply_pending ho m l).2 (apply_pending ho m' l').2.
Proof.
  intros Hs H. revert m m' Hs. induction H as [|a a' l l' Ha H IH]; intros m m' Hs; [split; [done|constructor]|].
  destruct Ha as [t t' ps ps' Hr Hps|t t' ps ps' d Hr Hps|tp tp' Htp]; cbn [apply_pending].
  - destruct Hs as [Hp [Ht Hd]]. unfold trns_add. rewrite (Forall2_length _ _ _ Ht), Hd. cbn [th_trn]. rewrite (T_day _ _ Hr).
    match goal with |- context [apply_post_actions ho ?x ?d ps] =>
      match goal with |- context [apply_post_actions ho ?y d ps'] =>
        destruct (rel_apply_posts ho x y d ps ps') as [Hs' Hr'] end end; [|done|].
    { split; [done|]. split; [|done]. cbn. apply Forall2_app; [done|]. apply List.Forall2_cons; [by split|constructor]. }
    destruct (apply_post_actions ho _ _ ps) as [m1 r1], (apply_post_actions ho _ _ ps') as [m1' r1'].
    cbn [fst snd] in *. subst r1'. destruct r1; [by apply IH|done..].
  - destruct (rel_apply_posts ho m m' d ps ps' Hs Hps) as [Hs' Hr']. destruct (apply_post_actions ho m d ps) as [m1 r1], (apply_post_actions ho m' d ps') as [m1' r1'].
    cbn [fst snd] in *. subst r1'. destruct r1; [by apply IH|done..].
  - destruct (IH m m' Hs) as [Hs' Hr]. destruct (apply_pending ho m l) as [m1 r1], (apply_pending ho m' l') as [m1' r1']. cbn [fst snd] in *.
    split; [done|]. destruct r1, r1'; try done. by constructor.
Qed.
Lemma rel_merge_eq ho m m' tps tps' : rel_m m m' → Forall2 trn_rel tps tps' →
  rel_m (merge ho m tps).1 (merge ho m' tps').1 ∧ result_alike (Forall2 trn_rel) (merge ho m tps).2 (merge ho m' tps').2.
Proof.
  intros Hs H. unfold merge, make_pending. assert (Hp := rel_pending_eq ho m m' ∅ tps tps' Hs H).
  destruct (make_pending_from ho m ∅ tps) as [l| |], (make_pending_from ho m' ∅ tps') as [l'| |]; try done.
  rewrite (rel_check_eq m m' l l' Hs Hp). destruct (check_pending m l); [|done..]. by apply rel_apply_eq.
Qed.

(** ** Building *)
Lemma rel_build_from_eq posts posts' hs hs' : Forall2 (option_Forall2 rel_pholder) posts posts' → Forall2 (holder_alike T) hs hs' →
  result_alike (Forall2 trn_rel) (build_from posts hs) (build_from posts' hs').
Proof.
  intros Hp H. revert posts posts' Hp. induction H as [|h h' hs hs' [Hr Hh] H IH]; intros posts posts' Hp; [constructor|]. cbn [build_from]. rewrite Hh.
  apply (rbind_alike _ _ _ _ _ _ (remove_all_alike rel_pholder posts posts' (th_postings h) Hp)). intros [ar ps] [ar' ps'] [H1 H2]. cbn [fst snd] in *.
  apply (rbind_alike _ _ _ _ _ _ (IH _ _ H1)). intros l l' Hl. apply List.Forall2_cons; [|done]. split; [done|]. cbn. clear -H2.
  induction H2 as [|x x' l l' [_ Hx] H IH]; [constructor|]. by apply List.Forall2_cons.
Qed.
Lemma rel_build_eq ho m m' : rel_m m m' → result_alike (Forall2 trn_rel) (build ho m) (build ho m').
Proof.
  intros [[Hp _] [Ht Hd]]. unfold build, trns_into_iter. rewrite Hd.
  assert (Forall2 (option_Forall2 (holder_alike T)) (Some <$> trn_arena (m_trns m)) (Some <$> trn_arena (m_trns m'))) as Ha.
  { clear -Ht. induction Ht; constructor; [by constructor|done]. }
  assert (Forall2 (option_Forall2 rel_pholder) (Some <$> post_arena (m_posts m)) (Some <$> post_arena (m_posts m'))) as Hb.
  { clear -Hp. induction Hp; constructor; [by constructor|done]. }
  assert (Hr := date_trns_alike _ _ _ (ho_dates ho (list nat) (trns_by_date (m_trns m))) Ha).
  destruct (date_trns (Some <$> trn_arena (m_trns m)) _) as [x| |], (date_trns (Some <$> trn_arena (m_trns m')) _) as [x'| |]; try done.
  cbn [rbind]. apply rel_build_from_eq; [done|].
  apply (sort_alike _ (λ a b : date * list trn_holder, date_leb a.1 b.1)) in Hr. 2:{ intros a a' b b' [-> _] [-> _]. done. }
  clear -Hr. induction Hr as [|y y' l l' [_ Hy] H IH]; [constructor|]. rewrite !bind_cons. by apply Forall2_app.
Qed.

End rel.

(** Of a posting, merging looks only at account, amount, balance and flag tags. *)
From Verif Require Import Base Types CommentModel MergeModel SpecBase BaseProofs HeaderClaims HeaderLaws PostClaims.
From Coq Require Import Lia.
Local Open Scope nat_scope.

Lemma rbind_alike {A B} (P : A → A → Prop) (Q : B → B → Prop) r r' k k' :
  result_alike P r r' → (∀ x x', P x x' → result_alike Q (k x) (k' x')) → result_alike Q (rbind r k) (rbind r' k').
Proof. destruct r, r'; cbn; try done; auto. Qed.
Lemma alike_eq {A} (r r' : result A) : r' = r → result_alike (λ x x', x' = x) r r'.
Proof. intros ->. by destruct r. Qed.
Lemma eq_alike {A} (r r' : result A) : result_alike (λ x x', x' = x) r r' → r' = r.
Proof. destruct r, r'; cbn; try done; congruence. Qed.
Lemma post_alike_refl p : post_alike p p.
Proof. done. Qed.

Definition pholder_alike (h h' : post_holder) : Prop := ph_parent h' = ph_parent h ∧ post_alike (ph_posting h) (ph_posting h').
Definition ip_alike (ip ip' : indexed_postings) : Prop :=
  Forall2 pholder_alike (post_arena ip) (post_arena ip') ∧ posts_by_date ip' = posts_by_date ip ∧ post_by_fingerprint ip' = post_by_fingerprint ip.
Definition input_alike (i i' : input) : Prop := in_date i' = in_date i ∧ post_alike (in_posting i) (in_posting i').
Definition day_alike (t t' : transaction_internal) : Prop := t_date (ti_raw t') = t_date (ti_raw t).
Definition m_alike (m m' : merger) : Prop := ip_alike (m_posts m) (m_posts m') ∧ trns_alike day_alike (m_trns m) (m_trns m').
Definition act_alike (x x' : input * post_action) : Prop := input_alike x.1 x'.1 ∧ x'.2 = x.2.
Definition acc_alike (a a' : merge_actions) : Prop :=
  match a, a' with
  | MActions l, MActions l' => Forall2 act_alike l l'
  | MLeave l, MLeave l' => Forall2 input_alike l l'
  | _, _ => False
  end.
Inductive taction_alike : trn_action → trn_action → Prop :=
  | ta_new t t' ps ps' : day_alike t t' → Forall2 act_alike ps ps' → taction_alike (TNew t ps) (TNew t' ps')
  | ta_merge t t' ps ps' d : day_alike t t' → Forall2 act_alike ps ps' → taction_alike (TMergeInto t ps d) (TMergeInto t' ps' d)
  | ta_leave tp tp' : same_posts tp tp' → taction_alike (TLeave tp) (TLeave tp').

(** ** Postings *)
Lemma alike_tags p p' : post_alike p p' → tags (pi_comment p') = tags (pi_comment p).
Proof. by intros (_ & _ & _ & H). Qed.
Lemma alike_fps ho p p' : post_alike p p' → fingerprints_from_comment ho (pi_comment p') = fingerprints_from_comment ho (pi_comment p).
Proof. intros H. unfold fingerprints_from_comment. by rewrite (alike_tags _ _ H). Qed.
Lemma alike_matches p p' q q' : post_alike p p' → post_alike q q' → matches p' q' = matches p q.
Proof. intros (A1 & A2 & A3 & A4) (B1 & B2 & B3 & B4). unfold matches. by rewrite A1, A2, A3, A4, B1, B2, B3, B4. Qed.
Lemma set_status_fields s p : p_account (set_status s p) = p_account p ∧ p_amount (set_status s p) = p_amount p ∧ p_balance (set_status s p) = p_balance p.
Proof. by destruct p. Qed.
Lemma set_balance_fields s p : p_account (set_balance s p) = p_account p ∧ p_amount (set_balance s p) = p_amount p ∧ p_balance (set_balance s p) = s.
Proof. by destruct p. Qed.
Lemma set_account_fields s p : p_account (set_account s p) = s ∧ p_amount (set_account s p) = p_amount p ∧ p_balance (set_account s p) = p_balance p.
Proof. by destruct p. Qed.
Lemma merge_posting_fields p q : let r := merge_posting p q in
  p_account (pi_raw r) = (if bool_decide (UNKNOWN_ACCOUNT ∈ tags (pi_comment p)) && negb (bool_decide (UNKNOWN_ACCOUNT ∈ tags (pi_comment q)))
                          then p_account (pi_raw q) else p_account (pi_raw p)) ∧
  p_amount (pi_raw r) = p_amount (pi_raw p) ∧
  p_balance (pi_raw r) = match p_balance (pi_raw p) with None => p_balance (pi_raw q) | b => b end ∧
  tags (pi_comment r) = (if bool_decide (UNKNOWN_ACCOUNT ∈ tags (pi_comment p)) && negb (bool_decide (UNKNOWN_ACCOUNT ∈ tags (pi_comment q)))
                         then tags (pi_comment p) ∖ {[UNKNOWN_ACCOUNT]} else tags (pi_comment p)) ∪ (tags (pi_comment q) ∖ {[UNKNOWN_ACCOUNT]}).
Proof.
  unfold merge_posting.
  set (raw1 := match p_status (pi_raw p), p_status (pi_raw q) with
    | None, s => set_status s (pi_raw p)
    | Some _, None => pi_raw p
    | Some Pending, Some Cleared => set_status (Some Cleared) (pi_raw p)
    | Some _, Some _ => pi_raw p
    end).
  assert (p_account raw1 = p_account (pi_raw p) ∧ p_amount raw1 = p_amount (pi_raw p) ∧ p_balance raw1 = p_balance (pi_raw p)) as (A1 & A2 & A3).
  { unfold raw1. destruct (p_status (pi_raw p)) as [[]|], (p_status (pi_raw q)) as [[]|]; try done; apply set_status_fields. }
  cbv zeta. clearbody raw1. rewrite A3.
  set (raw2 := match p_balance (pi_raw p) with None => set_balance (p_balance (pi_raw q)) raw1 | Some _ => raw1 end).
  assert (p_account raw2 = p_account (pi_raw p) ∧ p_amount raw2 = p_amount (pi_raw p) ∧
    p_balance raw2 = match p_balance (pi_raw p) with None => p_balance (pi_raw q) | b => b end) as (B1 & B2 & B3).
  { unfold raw2. destruct (p_balance (pi_raw p)) eqn:E; [done|].
    destruct (set_balance_fields (p_balance (pi_raw q)) raw1) as (-> & -> & ->). done. }
  clearbody raw2. destruct (_ && _); cbv zeta.
  - cbn [pi_raw pi_comment]. destruct (set_account_fields (p_account (pi_raw q)) raw2) as (-> & -> & ->). split_and!; [done|done|done|].
    unfold merge_from, set_tags. by destruct (pi_comment p), (pi_comment q).
  - cbn [pi_raw pi_comment]. split_and!; [done|done|done|]. unfold merge_from, set_tags. by destruct (pi_comment p), (pi_comment q).
Qed.
Lemma merge_posting_alike p p' q q' : post_alike p p' → post_alike q q' → post_alike (merge_posting p q) (merge_posting p' q').
Proof.
  intros (A1 & A2 & A3 & A4) (B1 & B2 & B3 & B4).
  destruct (merge_posting_fields p q) as (C1 & C2 & C3 & C4). destruct (merge_posting_fields p' q') as (D1 & D2 & D3 & D4).
  unfold post_alike. by rewrite C1, C2, C3, C4, D1, D2, D3, D4, A1, A2, A3, A4, B1, B3, B4.
Qed.
Lemma add_tag_alike i i' t : input_alike i i' → input_alike (input_add_tag i t) (input_add_tag i' t).
Proof.
  intros [Hd (A1 & A2 & A3 & A4)]. split; [done|]. split_and!; [done..|]. cbn. unfold set_tags.
  destruct (pi_comment (in_posting i)), (pi_comment (in_posting i')); cbn in *. by rewrite A4.
Qed.

(** ** Lookup *)
Lemma posts_get_alike ip ip' x : ip_alike ip ip' → result_alike pholder_alike (posts_get ip x) (posts_get ip' x).
Proof.
  intros [H _]. unfold posts_get. apply Forall2_lookup with (i := x) in H. by inversion H.
Qed.
Lemma soft_filter_alike ip ip' i i' idxs : ip_alike ip ip' → input_alike i i' → soft_filter ip' i' idxs = soft_filter ip i idxs.
Proof.
  intros Hip Hi. induction idxs as [|x idxs IH]; [done|]. cbn [soft_filter]. rewrite IH.
  apply eq_alike, (rbind_alike pholder_alike); [by apply posts_get_alike|]. intros h h' [_ Hh]. apply alike_eq.
  destruct (soft_filter ip i idxs); [|done..]. cbn [rbind]. destruct Hi as [_ Hi]. by rewrite (alike_matches _ _ _ _ Hh Hi).
Qed.
Lemma find_alike ho ip ip' i i' : ip_alike ip ip' → input_alike i i' → find_matching_postings ho ip' i' = find_matching_postings ho ip i.
Proof.
  intros Hip Hi. pose proof Hip as (_ & Hd & Hf). pose proof Hi as [Hid Hp]. unfold find_matching_postings, find_posting_by_fingerprints.
  rewrite Hf, (alike_fps ho _ _ Hp), Hd, Hid, (soft_filter_alike ip ip' i i'); done.
Qed.
Lemma candidates_alike ho ip ip' i i' idxs : ip_alike ip ip' → input_alike i i' →
  result_alike input_alike (add_candidates ho ip i idxs) (add_candidates ho ip' i' idxs).
Proof.
  intros Hip. revert i i'. induction idxs as [|x idxs IH]; intros i i' Hi; [done|]. cbn [add_candidates].
  apply (rbind_alike pholder_alike); [by apply posts_get_alike|]. intros h h' [_ Hh]. apply (rbind_alike (λ x x', x' = x)).
  - apply alike_eq. unfold primary_fingerprint. by rewrite (alike_fps ho _ _ Hh).
  - intros f ? ->. by apply IH, add_tag_alike.
Qed.
Lemma get_all_alike ip ip' xs : ip_alike ip ip' → result_alike (Forall2 pholder_alike) (rmapM (posts_get ip) xs) (rmapM (posts_get ip') xs).
Proof.
  intros H. induction xs as [|x xs IH]; [constructor|]. cbn [rmapM]. apply (rbind_alike pholder_alike); [by apply posts_get_alike|].
  intros h h' Hh. apply (rbind_alike _ _ _ _ _ _ IH). intros l l' Hl. by constructor.
Qed.
Lemma determine_alike ho m m' i i' : m_alike m m' → input_alike i i' →
  result_alike (λ x x', input_alike x.1 x'.1 ∧ x'.2 = x.2) (determine_posting_action ho m i) (determine_posting_action ho m' i').
Proof.
  intros [Hip _] Hi. unfold determine_posting_action. rewrite (find_alike ho (m_posts m) (m_posts m') i i' Hip Hi).
  destruct (find_matching_postings _ _ _) as [[[x|xs]|[x|xs]|]| |]; [..|done|done]; cbn [rbind]; try done.
  - apply (rbind_alike _ _ _ _ _ _ (get_all_alike _ _ xs Hip)). done.
  - apply (rbind_alike _ _ _ _ _ _ (candidates_alike ho _ _ _ _ xs Hip Hi)). done.
Qed.
Lemma acc_push_alike a a' i i' o : acc_alike a a' → input_alike i i' → acc_alike (acc_push a i o) (acc_push a' i' o).
Proof.
  intros Ha Hi. destruct a as [l|l], a' as [l'|l']; cbn in Ha; try done; cbn [acc_push].
  - destruct o as [o|]; cbn.
    + apply Forall2_app; [done|]. apply List.Forall2_cons; [by split|constructor].
    + apply Forall2_app; [|apply List.Forall2_cons; [done|constructor]]. clear -Ha. induction Ha as [|x x' l l' [Hx _] H IH]; [constructor|].
      by apply List.Forall2_cons.
  - cbn. apply Forall2_app; [done|]. apply List.Forall2_cons; [done|constructor].
Qed.
Lemma input_of_alike ho p p' d : post_alike p p' → result_alike input_alike (input_from_posting_internal ho p d) (input_from_posting_internal ho p' d).
Proof.
  intros Hp. unfold input_from_posting_internal. rewrite (alike_tags _ _ Hp). destruct (existsb is_candidate (ho_set ho (tags (pi_comment p)))), (existsb is_fingerprint (ho_set ho (tags (pi_comment p)))); done.
Qed.
Lemma process_posts_alike ho m m' d seen a a' ps ps' : m_alike m m' → acc_alike a a' → Forall2 post_alike ps ps' →
  result_alike (λ x x', x'.1 = x.1 ∧ acc_alike x.2 x'.2) (process_posts ho m d seen a ps) (process_posts ho m' d seen a' ps').
Proof.
  intros Hm Ha H. revert seen a a' Ha. induction H as [|p p' ps ps' Hp H IH]; intros seen a a' Ha; [done|]. cbn [process_posts].
  apply (rbind_alike input_alike); [by apply input_of_alike|]. intros i i' Hi. apply (rbind_alike (λ x x', x' = x)).
  - apply alike_eq. destruct Hi as [_ Hi]. by rewrite (alike_fps ho _ _ Hi).
  - intros s ? ->. apply (rbind_alike _ _ _ _ _ _ (determine_alike ho m m' i i' Hm Hi)). intros [j o] [j' o'] [Hj E]. cbn [fst snd] in *. subst o'.
    apply IH. by apply acc_push_alike.
Qed.

(** ** Actions *)
Lemma dests_alike ps ps' : Forall2 act_alike ps ps' → action_dests ps' = action_dests ps.
Proof.
  unfold action_dests. induction 1 as [|[i a] [i' a'] ps ps' [_ E] H IH]; [done|]. cbn [snd] in E. subst a'. cbn. by rewrite IH.
Qed.
Lemma parents_alike ip ip' xs : ip_alike ip ip' →
  rmapM (λ x, rmap ph_parent (posts_get ip' x)) xs = rmapM (λ x, rmap ph_parent (posts_get ip x)) xs.
Proof.
  intros H. induction xs as [|x xs IH]; [done|]. cbn [rmapM]. rewrite IH. f_equal.
  pose proof (posts_get_alike ip ip' x H) as Hg. destruct (posts_get ip x) as [h| |], (posts_get ip' x) as [h'| |]; cbn in *; try done; [|congruence].
  destruct Hg as [-> _]. done.
Qed.
Lemma dest_trn_alike m m' ps ps' : m_alike m m' → Forall2 act_alike ps ps' → find_existing_dest_trn m' ps' = find_existing_dest_trn m ps.
Proof.
  intros [Hip Ht] Hps. unfold find_existing_dest_trn. rewrite (dests_alike _ _ Hps), (parents_alike _ _ _ Hip).
  destruct (rmapM _ (action_dests ps)) as [parents| |]; [|done..]. cbn [rbind].
  destruct (elements _) as [|t [|t2 ts]]; [done..|].
  assert (∀ l, rbind (rmapM (λ t, match trn_arena (m_trns m') !! t with Some h => Ok h | None => Panic end) l) (λ _, Err EManyTransactions) =
    rbind (rmapM (λ t, match trn_arena (m_trns m) !! t with Some h => Ok h | None => Panic end) l) (λ _, Err (A := option nat) EManyTransactions)) as Hl; [|apply Hl].
  induction l as [|x l IH]; [done|]. cbn [rmapM].
  destruct (trns_lookup _ _ _ x Ht) as [(h & h' & -> & -> & _)|[-> ->]]; [|done]. cbn [rbind].
  destruct (rmapM _ l) as [a| |], (rmapM (λ t, match trn_arena (m_trns m) !! t with _ => _ end) l) as [b| |]; cbn [rbind] in *; done.
Qed.
Lemma taction_of_alike ho m m' seen tp tp' : m_alike m m' → same_posts tp tp' →
  result_alike (λ x x', x'.1 = x.1 ∧ taction_alike x.2 x'.2)
    (to_transaction_merge_action ho m seen tp) (to_transaction_merge_action ho m' seen tp').
Proof.
  intros Hm Hs. pose proof Hs as [Hd Hp]. unfold to_transaction_merge_action. rewrite Hd.
  destruct (tp_posts tp) as [|p ps].
  { inversion Hp. split; [done|]. by constructor. }
  inversion Hp as [|? p' ? ps' Hp1 Hps E1 E2]. clear E1. clear dependent l. clear dependent x. apply (rbind_alike (λ x x', x'.1 = x.1 ∧ acc_alike x.2 x'.2)).
  { apply process_posts_alike; [done|constructor|by constructor]. }
  intros [s a] [s' a'] [Es Ha]. cbn [fst snd] in *. subst s'. destruct a as [l|l], a' as [l'|l']; cbn in Ha; try done.
  - rewrite (dest_trn_alike m m' l l' Hm Ha). destruct (find_existing_dest_trn m l) as [[t|]| |]; [| |done..]; cbn [rbind]; (split; [done|]); by constructor.
  - split; [done|]. cbn [snd]. constructor. split; [done|]. cbn. clear -Ha. induction Ha as [|i i' l l' [_ Hi] H IH]; [constructor|].
    by apply List.Forall2_cons.
Qed.
Lemma pending_same ho m m' seen tps tps' : m_alike m m' → Forall2 same_posts tps tps' →
  result_alike (Forall2 taction_alike) (make_pending_from ho m seen tps) (make_pending_from ho m' seen tps').
Proof.
  intros Hs H. revert seen. induction H as [|tp tp' tps tps' Ht H IH]; intros seen; [constructor|]. cbn [make_pending_from].
  apply (rbind_alike _ _ _ _ _ _ (taction_of_alike ho m m' seen tp tp' Hs Ht)). intros [s a] [s' a'] [Es Ha]. cbn [fst snd] in *. subst s'.
  apply (rbind_alike _ _ _ _ _ _ (IH s)). intros l l' Hl. by constructor.
Qed.

(** ** The check for two sources with one destination *)
Lemma to_list_raw_fmap {A B} (f : A → B) j t acc :
  pmap.Pto_list_raw j (pmap.Pfmap_raw f t) (prod_map id f <$> acc) = prod_map id f <$> pmap.Pto_list_raw j t acc.
Proof.
  revert j acc. induction t as [|[o|] l IHl r IHr]; intros j acc; [done|..]; cbn [pmap.Pto_list_raw pmap.Pfmap_raw].
  - rewrite IHr, IHl. done.
  - rewrite IHr, IHl. done.
Qed.
Lemma to_list_fmap_exact {A B} (f : A → B) (mp : gmap nat A) : map_to_list (f <$> mp) = prod_map id f <$> map_to_list mp.
Proof.
  destruct mp as [[t Ht] Hmp].
  change (omap (λ '(i, x), (., x) <$> decode i) (pmap.Pto_list_raw 1%positive (pmap.Pfmap_raw f t) []) =
    prod_map id f <$> omap (λ '(i, x), (., x) <$> decode (A := nat) i) (pmap.Pto_list_raw 1%positive t [])).
  pose proof (to_list_raw_fmap f 1%positive t []) as E. cbn [fmap list_fmap] in E. rewrite E. clear E.
  induction (pmap.Pto_list_raw 1%positive t []) as [|[i x] l IH]; [done|]. csimpl. destruct (decode (A := nat) i); csimpl; by rewrite <- IH.
Qed.
Lemma push_entry_length (mp mp' : gmap nat (list input)) x i i' : length <$> mp' = length <$> mp →
  length <$> push_entry x i' mp' = length <$> push_entry x i mp.
Proof.
  intros H. unfold push_entry. rewrite !fmap_insert, H. f_equal. rewrite !app_length. f_equal.
  assert (length <$> mp' !! x = length <$> mp !! x) as E by (rewrite <- !lookup_fmap; by rewrite H).
  destruct (mp' !! x), (mp !! x); cbn in *; congruence.
Qed.
Lemma sources_same l l' : Forall2 taction_alike l l' → length <$> sources_by_dest l' = length <$> sources_by_dest l.
Proof.
  unfold sources_by_dest. intros H. generalize (eq_refl (length <$> (∅ : gmap nat (list input)))).
  generalize (∅ : gmap nat (list input)) at 1 3. generalize (∅ : gmap nat (list input)). intros mp mp' Hmp.
  revert mp mp' Hmp. induction H as [|a a' l l' Ha H IH]; intros mp mp' Hmp; [done|]. cbn [foldl]. apply IH.
  destruct Ha as [| t t' ps ps' d _ Hps|]; [done| |done]. clear -Hps Hmp. revert mp mp' Hmp.
  induction Hps as [|[i a] [i' a'] ps ps' [Hi E] H IH]; intros mp mp' Hmp; [done|]. cbn [foldl]. cbn [snd] in E. subst a'. apply IH.
  destruct a; [done|]. by apply push_entry_length.
Qed.
Lemma check_entries_same m m' es es' : ip_alike (m_posts m) (m_posts m') → prod_map id length <$> es' = prod_map id length <$> es →
  check_entries m' es' = check_entries m es.
Proof.
  intros Hip. revert es'. induction es as [|[x srcs] es IH]; intros [|[x' srcs'] es'] E; csimpl in E; [done|discriminate E|discriminate E|].
  injection E as E1 E2 E3. cbn [check_entries]. change (x' = x) in E1. subst x'. rewrite E2, (IH _ E3). destruct (1 <? length srcs)%nat; [|done].
  pose proof (posts_get_alike _ _ x Hip) as Hg. destruct (posts_get (m_posts m) x), (posts_get (m_posts m') x); cbn in *; try done. congruence.
Qed.
Lemma check_same m m' l l' : m_alike m m' → Forall2 taction_alike l l' → check_pending m' l' = check_pending m l.
Proof.
  intros [Hip _] H. unfold check_pending. apply check_entries_same; [done|]. by rewrite <- !to_list_fmap_exact, (sources_same _ _ H).
Qed.

(** ** Applying *)
Definition step_alike {A} (x x' : indexed_postings * result A) : Prop := ip_alike x.1 x'.1 ∧ x'.2 = x.2.
Lemma posts_add_alike ho ip ip' i i' d : ip_alike ip ip' → input_alike i i' → step_alike (posts_add ho ip i d) (posts_add ho ip' i' d).
Proof.
  intros (Ha & Hd & Hf) [Hid Hp]. unfold posts_add. rewrite (Forall2_length _ _ _ Ha), Hd, Hf, Hid, (alike_fps ho _ _ Hp).
  assert (Forall2 pholder_alike (post_arena ip ++ [PostHolder d (in_posting i)]) (post_arena ip' ++ [PostHolder d (in_posting i')])) as H.
  { apply Forall2_app; [done|]. apply List.Forall2_cons; [by split|constructor]. }
  destruct (register_fingerprints _ _ _) as [mp [|e|]]; by split.
Qed.
Lemma posts_merge_alike ho ip ip' i i' x : ip_alike ip ip' → input_alike i i' → step_alike (posts_merge_into ho ip x i) (posts_merge_into ho ip' x i').
Proof.
  intros (Ha & Hd & Hf) [Hid Hp]. unfold posts_merge_into. rewrite Hd, Hf, (alike_fps ho _ _ Hp).
  destruct (register_fingerprints _ _ _) as [mp [|e|]]; [|by split..].
  pose proof Ha as Hx. apply Forall2_lookup with (i := x) in Hx. inversion Hx as [h h' [Hpar Hh] E1 E2|]; [|by split].
  split; [|done]. cbn [fst]. split; [|done]. cbn [post_arena]. apply Forall2_insert; [done|]. split; cbn; [done|]. by apply merge_posting_alike.
Qed.
Lemma apply_posts_alike ho m m' d ps ps' : m_alike m m' → Forall2 act_alike ps ps' →
  m_alike (apply_post_actions ho m d ps).1 (apply_post_actions ho m' d ps').1 ∧
  (apply_post_actions ho m' d ps').2 = (apply_post_actions ho m d ps).2.
Proof.
  intros Hm H. revert m m' Hm. induction H as [|[i a] [i' a'] ps ps' [Hi E] H IH]; intros m m' Hm; [done|]. cbn [fst snd] in Hi, E. subst a'.
  destruct Hm as [Hp Ht]. destruct a as [|x]; cbn [apply_post_actions].
  - destruct (posts_add_alike ho _ _ i i' d Hp Hi) as [H1 H2].
    destruct (posts_add ho (m_posts m) i d) as [ip r], (posts_add ho (m_posts m') i' d) as [ip' r']. cbn [fst snd] in *. subst r'.
    destruct r as [idx| |]; [|done..]. destruct (add_post_alike _ _ _ d idx Ht) as [Ha Hr].
    destruct (trns_add_post (m_trns m) d idx) as [it r], (trns_add_post (m_trns m') d idx) as [it' r'].
    cbn [fst snd] in *. subst r'. destruct r; [|done..]. by apply IH.
  - destruct (posts_merge_alike ho _ _ i i' x Hp Hi) as [H1 H2].
    destruct (posts_merge_into ho (m_posts m) x i) as [ip r], (posts_merge_into ho (m_posts m') x i') as [ip' r']. cbn [fst snd] in *. subst r'.
    destruct r as [[]| |]; [|done..]. by apply IH.
Qed.
Lemma apply_same ho m m' l l' : m_alike m m' → Forall2 taction_alike l l' →
  m_alike (apply_pending ho m l).1 (apply_pending ho m' l').1 ∧
  result_alike (Forall2 same_posts) (apply_pending ho m l).2 (apply_pending ho m' l').2.
Proof.
  intros Hs H. revert m m' Hs. induction H as [|a a' l l' Ha H IH]; intros m m' Hs; [split; [done|constructor]|].
  destruct Ha as [t t' ps ps' Hr Hps|t t' ps ps' d Hr Hps|tp tp' Htp]; cbn [apply_pending].
  - destruct Hs as [Hp [Ht Hd]]. unfold trns_add. rewrite (Forall2_length _ _ _ Ht), Hd. cbn [th_trn]. unfold day_alike in Hr. rewrite Hr.
    match goal with |- context [apply_post_actions ho ?x ?d ps] =>
      match goal with |- context [apply_post_actions ho ?y d ps'] =>
        destruct (apply_posts_alike ho x y d ps ps') as [Hs' Hr'] end end; [|done|].
    { split; [done|]. split; [|done]. cbn. apply Forall2_app; [done|]. apply List.Forall2_cons; [by split|constructor]. }
    destruct (apply_post_actions ho _ _ ps) as [m1 r1], (apply_post_actions ho _ _ ps') as [m1' r1'].
    cbn [fst snd] in *. subst r1'. destruct r1; [by apply IH|done..].
  - destruct (apply_posts_alike ho m m' d ps ps' Hs Hps) as [Hs' Hr']. destruct (apply_post_actions ho m d ps) as [m1 r1], (apply_post_actions ho m' d ps') as [m1' r1'].
    cbn [fst snd] in *. subst r1'. destruct r1; [by apply IH|done..].
  - destruct (IH m m' Hs) as [Hs' Hr]. destruct (apply_pending ho m l) as [m1 r1], (apply_pending ho m' l') as [m1' r1']. cbn [fst snd] in *.
    split; [done|]. destruct r1, r1'; try done. by constructor.
Qed.
Lemma merge_same ho m m' tps tps' : m_alike m m' → Forall2 same_posts tps tps' →
  m_alike (merge ho m tps).1 (merge ho m' tps').1 ∧ result_alike (Forall2 same_posts) (merge ho m tps).2 (merge ho m' tps').2.
Proof.
  intros Hs H. unfold merge, make_pending. assert (Hp := pending_same ho m m' ∅ tps tps' Hs H).
  destruct (make_pending_from ho m ∅ tps) as [l| |], (make_pending_from ho m' ∅ tps') as [l'| |]; try done.
  rewrite (check_same m m' l l' Hs Hp). destruct (check_pending m l); [|done..]. by apply apply_same.
Qed.

(** ** Building *)
Lemma build_from_same posts posts' hs hs' : Forall2 (option_Forall2 pholder_alike) posts posts' → Forall2 (holder_alike day_alike) hs hs' →
  result_alike (Forall2 same_posts) (build_from posts hs) (build_from posts' hs').
Proof.
  intros Hp H. revert posts posts' Hp. induction H as [|h h' hs hs' [Hr Hh] H IH]; intros posts posts' Hp; [constructor|]. cbn [build_from]. rewrite Hh.
  apply (rbind_alike _ _ _ _ _ _ (remove_all_alike pholder_alike posts posts' (th_postings h) Hp)). intros [ar ps] [ar' ps'] [H1 H2]. cbn [fst snd] in *.
  apply (rbind_alike _ _ _ _ _ _ (IH _ _ H1)). intros l l' Hl. apply List.Forall2_cons; [|done]. split; [done|]. cbn. clear -H2.
  induction H2 as [|x x' l l' [_ Hx] H IH]; [constructor|]. by apply List.Forall2_cons.
Qed.
Lemma build_same ho m m' : m_alike m m' → result_alike (Forall2 same_posts) (build ho m) (build ho m').
Proof.
  intros [[Hp _] [Ht Hd]]. unfold build, trns_into_iter. rewrite Hd.
  assert (Forall2 (option_Forall2 (holder_alike day_alike)) (Some <$> trn_arena (m_trns m)) (Some <$> trn_arena (m_trns m'))) as Ha.
  { clear -Ht. induction Ht; constructor; [by constructor|done]. }
  assert (Forall2 (option_Forall2 pholder_alike) (Some <$> post_arena (m_posts m)) (Some <$> post_arena (m_posts m'))) as Hb.
  { clear -Hp. induction Hp; constructor; [by constructor|done]. }
  assert (Hr := date_trns_alike _ _ _ (ho_dates ho (list nat) (trns_by_date (m_trns m))) Ha).
  destruct (date_trns (Some <$> trn_arena (m_trns m)) _) as [x| |], (date_trns (Some <$> trn_arena (m_trns m')) _) as [x'| |]; try done.
  cbn [rbind]. apply build_from_same; [done|].
  apply (sort_alike _ (λ a b : date * list trn_holder, date_leb a.1 b.1)) in Hr. 2:{ intros a a' b b' [-> _] [-> _]. done. }
  clear -Hr. induction Hr as [|y y' l l' [_ Hy] H IH]; [constructor|]. rewrite !bind_cons. by apply Forall2_app.
Qed.
Lemma made_m_alike m m' : made_alike m m' → m_alike m m'.
Proof.
  induction 1 as [|m m' ho tps tps' H IH Ht]; [|by apply merge_same]. split; [split; [constructor|done]|]. split; [constructor|done].
Qed.
Lemma c115 m m' ho tps tps' : made_alike m m' → Forall2 same_posts tps tps' →
  result_alike (Forall2 same_posts) (merge ho m tps).2 (merge ho m' tps').2 ∧
  result_alike (Forall2 same_posts) (build ho m) (build ho m').
Proof. intros H%made_m_alike Ht. split; [by apply merge_same|by apply build_same]. Qed.

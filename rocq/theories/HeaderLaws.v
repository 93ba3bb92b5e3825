(** Merging does not look at the headers of transactions, except for their dates. *)
From Verif Require Import Base Types CommentModel MergeModel SpecBase BaseProofs HeaderClaims.
From Coq Require Import Lia.
Local Open Scope nat_scope.

Section headers.
  Variable R : transaction_internal → transaction_internal → Prop.
  Hypothesis Hdate : ∀ t t', R t t' → t_date (ti_raw t') = t_date (ti_raw t).

  Definition holder_alike (h h' : trn_holder) : Prop := R (th_trn h) (th_trn h') ∧ th_postings h' = th_postings h.
  Definition trns_alike (t t' : indexed_trns) : Prop :=
    Forall2 holder_alike (trn_arena t) (trn_arena t') ∧ trns_by_date t' = trns_by_date t.
  Definition sim (m m' : merger) : Prop := m_posts m' = m_posts m ∧ trns_alike (m_trns m) (m_trns m').
  Inductive action_alike : trn_action → trn_action → Prop :=
    | aa_new t t' ps : R t t' → action_alike (TNew t ps) (TNew t' ps)
    | aa_merge t t' ps d : R t t' → action_alike (TMergeInto t ps d) (TMergeInto t' ps d)
    | aa_leave tp tp' : trn_alike R tp tp' → action_alike (TLeave tp) (TLeave tp').

  Lemma trns_lookup t t' i : trns_alike t t' →
    (∃ h h', trn_arena t !! i = Some h ∧ trn_arena t' !! i = Some h' ∧ holder_alike h h') ∨ (trn_arena t !! i = None ∧ trn_arena t' !! i = None).
  Proof.
    intros [H _]. apply Forall2_lookup with (i := i) in H. inversion H; [left; eauto 10|right; done].
  Qed.
  Lemma process_alike ho m m' d seen acc posts : m_posts m' = m_posts m →
    process_posts ho m' d seen acc posts = process_posts ho m d seen acc posts.
  Proof.
    intros H. revert seen acc. induction posts as [|p posts IH]; intros seen acc; [done|]. cbn [process_posts].
    destruct (input_from_posting_internal ho p d) as [i| |]; [|done..]. cbn [rbind].
    destruct (see_fingerprints seen _) as [seen'| |]; [|done..]. cbn [rbind].
    assert (determine_posting_action ho m' i = determine_posting_action ho m i) as -> by (unfold determine_posting_action; by rewrite H).
    destruct (determine_posting_action ho m i) as [[i' a]| |]; [|done..]. cbn [rbind]. apply IH.
  Qed.
  Lemma dest_alike m m' ps : sim m m' → find_existing_dest_trn m' ps = find_existing_dest_trn m ps.
  Proof.
    intros [Hp Ht]. unfold find_existing_dest_trn. rewrite Hp. destruct (rmapM _ (action_dests ps)) as [parents| |]; [|done..]. cbn [rbind].
    destruct (elements _) as [|t [|t2 ts]]; [done..|].
    assert (∀ l, rbind (rmapM (λ t, match trn_arena (m_trns m') !! t with Some h => Ok h | None => Panic end) l) (λ _, Err EManyTransactions) =
      rbind (rmapM (λ t, match trn_arena (m_trns m) !! t with Some h => Ok h | None => Panic end) l) (λ _, Err (A := option nat) EManyTransactions)) as Hl; [|apply Hl].
    induction l as [|x l IH]; [done|]. cbn [rmapM].
    destruct (trns_lookup _ _ x Ht) as [(h & h' & -> & -> & _)|[-> ->]]; [|done]. cbn [rbind].
    destruct (rmapM _ l) as [a| |], (rmapM (λ t, match trn_arena (m_trns m) !! t with _ => _ end) l) as [b| |]; cbn [rbind] in *; done.
  Qed.
  Lemma action_of_alike ho m m' seen tp tp' : sim m m' → trn_alike R tp tp' →
    result_alike (λ x x', x'.1 = x.1 ∧ action_alike x.2 x'.2)
      (to_transaction_merge_action ho m seen tp) (to_transaction_merge_action ho m' seen tp').
  Proof.
    intros Hs [Hr Hp]. unfold to_transaction_merge_action. rewrite Hp. destruct (tp_posts tp) as [|p ps] eqn:E.
    { split; [done|]. constructor. split; [done|]. by rewrite E. }
    rewrite (Hdate _ _ Hr), (process_alike ho m m') by apply Hs.
    destruct (process_posts _ _ _ _ _ _) as [[seen' [l|l]]| |]; [| |done..]; cbn [rbind].
    - rewrite (dest_alike m m') by done. destruct (find_existing_dest_trn m l) as [[t|]| |]; [| |done..]; cbn [rbind]; (split; [done|]); by constructor.
    - split; [done|]. by constructor.
  Qed.
  Lemma pending_alike ho m m' seen tps tps' : sim m m' → Forall2 (trn_alike R) tps tps' →
    result_alike (Forall2 action_alike) (make_pending_from ho m seen tps) (make_pending_from ho m' seen tps').
  Proof.
    intros Hs H. revert seen. induction H as [|tp tp' tps tps' Ht H IH]; intros seen; [constructor|]. cbn [make_pending_from].
    assert (Ha := action_of_alike ho m m' seen tp tp' Hs Ht).
    destruct (to_transaction_merge_action ho m seen tp) as [[s a]| |], (to_transaction_merge_action ho m' seen tp') as [[s' a']| |]; try done.
    destruct Ha as [Hss Ha]. cbn [fst snd] in *. subst s'. cbn [rbind]. specialize (IH s).
    destruct (make_pending_from ho m s tps) as [l| |], (make_pending_from ho m' s tps') as [l'| |]; try done. by constructor.
  Qed.
  Lemma sources_alike l l' : Forall2 action_alike l l' → sources_by_dest l' = sources_by_dest l.
  Proof.
    unfold sources_by_dest. generalize (∅ : gmap nat (list input)). intros mp H. revert mp.
    induction H as [|a a' l l' Ha H IH]; intros mp; [done|]. cbn [foldl]. rewrite IH. by destruct Ha.
  Qed.
  Lemma check_alike m m' l l' : sim m m' → Forall2 action_alike l l' → check_pending m' l' = check_pending m l.
  Proof.
    intros [Hp _] H. unfold check_pending. rewrite (sources_alike _ _ H). induction (map_to_list _) as [|[x srcs] es IH]; [done|].
    cbn [check_entries]. by rewrite Hp, IH.
  Qed.
  Lemma add_post_alike t t' d i : trns_alike t t' →
    trns_alike (trns_add_post t d i).1 (trns_add_post t' d i).1 ∧ (trns_add_post t' d i).2 = (trns_add_post t d i).2.
  Proof.
    intros Ht. unfold trns_add_post. destruct (trns_lookup _ _ d Ht) as [(h & h' & -> & -> & [Hr Hh])|[-> ->]]; [|done].
    cbn [fst snd]. split; [|done]. destruct Ht as [Ht Hd]. split; cbn [trn_arena trns_by_date]; [|done]. apply Forall2_insert; [done|].
    split; cbn; [done|]. by rewrite Hh.
  Qed.
  Lemma posts_alike ho m m' d ps : sim m m' →
    sim (apply_post_actions ho m d ps).1 (apply_post_actions ho m' d ps).1 ∧
    (apply_post_actions ho m' d ps).2 = (apply_post_actions ho m d ps).2.
  Proof.
    revert m m'. induction ps as [|[i [|x]] ps IH]; intros m m' [Hp Ht]; [done|..]; cbn [apply_post_actions]; rewrite Hp.
    - destruct (posts_add ho (m_posts m) i d) as [ip [idx| |]]; [|done..].
      destruct (add_post_alike _ _ d idx Ht) as [Ha Hr]. destruct (trns_add_post (m_trns m) d idx) as [it r], (trns_add_post (m_trns m') d idx) as [it' r'].
      cbn [fst snd] in *. subst r'. destruct r; [|done..]. by apply IH.
    - destruct (posts_merge_into ho (m_posts m) x i) as [ip [[]| |]]; [|done..]. by apply IH.
  Qed.
  Lemma apply_alike ho m m' l l' : sim m m' → Forall2 action_alike l l' →
    sim (apply_pending ho m l).1 (apply_pending ho m' l').1 ∧
    result_alike (Forall2 (trn_alike R)) (apply_pending ho m l).2 (apply_pending ho m' l').2.
  Proof.
    intros Hs H. revert m m' Hs. induction H as [|a a' l l' Ha H IH]; intros m m' Hs; [split; [done|constructor]|].
    destruct Ha as [t t' ps Hr|t t' ps d Hr|tp tp' Htp]; cbn [apply_pending].
    - destruct Hs as [Hp [Ht Hd]]. unfold trns_add. rewrite (Forall2_length _ _ _ Ht). rewrite Hp, Hd. cbn [th_trn]. rewrite (Hdate _ _ Hr).
      match goal with |- context [apply_post_actions ho ?x ?d ps] =>
        match goal with |- context [apply_post_actions ho ?y d ps] => assert_fails (unify x y);
          destruct (posts_alike ho x y d ps) as [Hs' Hr'] end end.
      { split; [done|]. split; [|done]. cbn. apply Forall2_app; [done|]. by constructor. }
      destruct (apply_post_actions ho _ _ ps) as [m1 r1], (apply_post_actions ho (Merger (m_posts m) (IT (trn_arena (m_trns m') ++ _) _)) _ ps) as [m1' r1'].
      cbn [fst snd] in *. subst r1'. destruct r1; [by apply IH|done..].
    - destruct (posts_alike ho m m' d ps Hs) as [Hs' Hr']. destruct (apply_post_actions ho m d ps) as [m1 r1], (apply_post_actions ho m' d ps) as [m1' r1'].
      cbn [fst snd] in *. subst r1'. destruct r1; [by apply IH|done..].
    - destruct (IH m m' Hs) as [Hs' Hr]. destruct (apply_pending ho m l) as [m1 r1], (apply_pending ho m' l') as [m1' r1']. cbn [fst snd] in *.
      split; [done|]. destruct r1, r1'; try done. by constructor.
  Qed.
  Lemma merge_alike ho m m' tps tps' : sim m m' → Forall2 (trn_alike R) tps tps' →
    sim (merge ho m tps).1 (merge ho m' tps').1 ∧ result_alike (Forall2 (trn_alike R)) (merge ho m tps).2 (merge ho m' tps').2.
  Proof.
    intros Hs H. unfold merge, make_pending. assert (Hp := pending_alike ho m m' ∅ tps tps' Hs H).
    destruct (make_pending_from ho m ∅ tps) as [l| |], (make_pending_from ho m' ∅ tps') as [l'| |]; try done.
    rewrite (check_alike m m' l l' Hs Hp). destruct (check_pending m l); [|done..]. by apply apply_alike.
  Qed.

  (** ** Building *)
  Lemma remove_all_alike {A} (P : A → A → Prop) ar ar' idxs : Forall2 (option_Forall2 P) ar ar' →
    result_alike (λ x x', Forall2 (option_Forall2 P) x.1 x'.1 ∧ Forall2 P x.2 x'.2) (arena_remove_all ar idxs) (arena_remove_all ar' idxs).
  Proof.
    revert ar ar'. induction idxs as [|i idxs IH]; intros ar ar' H; [split; [done|constructor]|]. cbn [arena_remove_all]. unfold arena_remove.
    apply Forall2_lookup with (i := i) in H as Hi'. 
    destruct Hi' as [o o' Ho|]; [|done]. destruct Ho as [a a' Ha|]; [|done]. cbn [rbind].
    specialize (IH (<[i:=None]> ar) (<[i:=None]> ar')). assert (Forall2 (option_Forall2 P) (<[i:=None]> ar) (<[i:=None]> ar')) as Hins.
    { apply Forall2_insert; [done|constructor]. }
    specialize (IH Hins). destruct (arena_remove_all (<[i:=None]> ar) idxs) as [[ar1 l1]| |], (arena_remove_all (<[i:=None]> ar') idxs) as [[ar1' l1']| |]; try done.
    cbn [rbind]. destruct IH as [H1 H2]. split; [done|]. by constructor.
  Qed.
  Lemma date_trns_alike ar ar' l : Forall2 (option_Forall2 holder_alike) ar ar' →
    result_alike (Forall2 (λ x x', x'.1 = x.1 ∧ Forall2 holder_alike x.2 x'.2)) (date_trns ar l) (date_trns ar' l).
  Proof.
    revert ar ar'. induction l as [|[d idxs] l IH]; intros ar ar' H; [constructor|]. cbn [date_trns].
    assert (Hr := remove_all_alike holder_alike ar ar' idxs H).
    destruct (arena_remove_all ar idxs) as [[ar1 hs]| |], (arena_remove_all ar' idxs) as [[ar1' hs']| |]; try done. destruct Hr as [H1 H2]. cbn [fst snd rbind] in *.
    specialize (IH ar1 ar1' H1). destruct (date_trns ar1 l) as [x| |], (date_trns ar1' l) as [x'| |]; try done. by constructor.
  Qed.
  Lemma build_from_alike posts hs hs' : Forall2 holder_alike hs hs' →
    result_alike (Forall2 (trn_alike R)) (build_from posts hs) (build_from posts hs').
  Proof.
    intros H. revert posts. induction H as [|h h' hs hs' [Hr Hh] H IH]; intros posts; [constructor|]. cbn [build_from]. rewrite Hh.
    destruct (arena_remove_all posts (th_postings h)) as [[posts' ps]| |]; [|done..]. cbn [rbind].
    specialize (IH posts'). destruct (build_from posts' hs) as [x| |], (build_from posts' hs') as [x'| |]; try done. by constructor.
  Qed.
  Lemma insert_alike {A} (P : A → A → Prop) leb x x' l l' : (∀ a a' b b', P a a' → P b b' → leb a' b' = leb a b) → P x x' →
    Forall2 P l l' → Forall2 P (sort_insert leb x l) (sort_insert leb x' l').
  Proof.
    intros Hleb Hx H. induction H as [|y y' l l' Hy H IH]; [by repeat constructor|]. cbn [sort_insert]. rewrite (Hleb _ _ _ _ Hx Hy).
    destruct (leb x y); by repeat constructor.
  Qed.
  Lemma sort_alike {A} (P : A → A → Prop) leb l l' : (∀ a a' b b', P a a' → P b b' → leb a' b' = leb a b) →
    Forall2 P l l' → Forall2 P (stable_sort leb l) (stable_sort leb l').
  Proof. intros Hleb H. induction H as [|y y' l l' Hy H IH]; [constructor|]. cbn [stable_sort]. by apply insert_alike. Qed.
  Lemma build_alike ho m m' : sim m m' → result_alike (Forall2 (trn_alike R)) (build ho m) (build ho m').
  Proof.
    intros [Hp [Ht Hd]]. unfold build, trns_into_iter. rewrite Hp, Hd.
    assert (Forall2 (option_Forall2 holder_alike) (Some <$> trn_arena (m_trns m)) (Some <$> trn_arena (m_trns m'))) as Ha.
    { clear -Ht. induction Ht; constructor; [by constructor|done]. }
    assert (Hr := date_trns_alike _ _ (ho_dates ho (list nat) (trns_by_date (m_trns m))) Ha).
    destruct (date_trns (Some <$> trn_arena (m_trns m)) _) as [x| |], (date_trns (Some <$> trn_arena (m_trns m')) _) as [x'| |]; try done.
    cbn [rbind]. apply build_from_alike.
    apply (sort_alike _ (λ a b : date * list trn_holder, date_leb a.1 b.1)) in Hr. 2:{ intros a a' b b' [-> _] [-> _]. done. }
    clear -Hr. induction Hr as [|y y' l l' [_ Hy] H IH]; [constructor|]. rewrite !bind_cons. by apply Forall2_app.
  Qed.
  Lemma alike_sim m m' : alike R m m' → sim m m'.
  Proof. induction 1 as [|m m' ho tps tps' H IH Ht]; [split; [done|]; split; [constructor|done]|]. by apply merge_alike. Qed.
  Lemma c98 m m' ho tps tps' : alike R m m' → Forall2 (trn_alike R) tps tps' →
    result_alike (Forall2 (trn_alike R)) (merge ho m tps).2 (merge ho m' tps').2 ∧
    result_alike (Forall2 (trn_alike R)) (build ho m) (build ho m').
  Proof. intros H%alike_sim Ht. split; [by apply merge_alike|by apply build_alike]. Qed.
End headers.

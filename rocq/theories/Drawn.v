(** Proofs for C152: the ids that generate-fingerprints draws make no difference. *)
From stdpp Require Import gmap list.
From Verif Require Import MergeClaims.
From Verif Require Import Base Types SpecBase BaseProofs CommentModel MergeModel MergeSpec MergeClaims MergeProofs CmdModel CmdClaims CmdFp
  RenameClaims RetagClaims Retag ResolveClaims PartsClaims DrawnClaims.
From Coq Require Import Lia.
Local Open Scope nat_scope.

Lemma ho_set_elem (ho : hash_order) (s : gset str) (x : str) : hash_order_ok ho → x ∈ ho_set ho s ↔ x ∈ s.
Proof. intros (Hs & _). rewrite (Hs _). apply elem_of_elements. Qed.

Section drawn.
  Context (gen gen' : nat → str) (n n' : nat) (Hd : different_ids gen n n') (Hd' : different_ids gen' n n').

  Definition exch (t : str) : str :=
    match list_find (λ i, t = id_fingerprint (gen i)) (seq n (n' - n)) with
    | Some (_, i) => id_fingerprint (gen' i)
    | None => t
    end.
  Lemma id_inj a b : id_fingerprint a = id_fingerprint b → a = b.
  Proof. unfold id_fingerprint. intros E. by apply app_inv_head in E. Qed.
  Lemma exch_drawn i : n ≤ i < n' → exch (id_fingerprint (gen i)) = id_fingerprint (gen' i).
  Proof using Hd.
    intros Hi. unfold exch. destruct (list_find _ _) as [[k x]|] eqn:E.
    - apply list_find_Some in E as (Hk & E & _). apply lookup_seq in Hk as [-> Hk]. apply id_inj, Hd in E; [|lia..]. by rewrite E.
    - apply list_find_None in E. rewrite Forall_forall in E. destruct (E i); [|done]. apply elem_of_seq. lia.
  Qed.
  Lemma exch_other t : ¬ drawn gen n n' t → exch t = t.
  Proof.
    intros Hn. unfold exch. destruct (list_find _ _) as [[k x]|] eqn:E; [|done].
    apply list_find_Some in E as (Hk & E & _). apply lookup_seq in Hk as [-> Hk]. destruct Hn. exists (n + k). split; [lia|done].
  Qed.
  Lemma exch_exchanges : exchanges gen gen' n n' exch.
  Proof using Hd. split; [exact exch_drawn|exact exch_other]. Qed.
  Lemma drawn_dec t : drawn gen n n' t ∨ ¬ drawn gen n n' t.
  Proof.
    destruct (list_find (λ i, t = id_fingerprint (gen i)) (seq n (n' - n))) as [[k x]|] eqn:E.
    - left. apply list_find_Some in E as (Hk & E & _). apply lookup_seq in Hk as [-> Hk]. exists (n + k). split; [lia|done].
    - right. intros (i & Hi & ->). apply list_find_None in E. rewrite Forall_forall in E. destruct (E i); [|done]. apply elem_of_seq. lia.
  Qed.
  Lemma id_fp a : fp_tag (id_fingerprint a).
  Proof. by exists (s2l "uuidb64-" ++ a). Qed.
  Lemma id_candidate a : ¬ candidate_tag (id_fingerprint a).
  Proof. intros [x E]. discriminate E. Qed.
  Lemma id_unknown a : id_fingerprint a ≠ s2l "unknown-account".
  Proof. intros E. discriminate E. Qed.
  Lemma exch_kinds : keeps_kinds exch.
  Proof using Hd.
    split; intros t; (destruct (drawn_dec t) as [(i & Hi & ->)|Hn]; [rewrite exch_drawn by done|by rewrite exch_other]).
    - split; intros _; apply id_fp.
    - split; intros H; by apply id_candidate in H.
    - split; intros H; by apply id_unknown in H.
  Qed.
  Definition kept_fp (t : str) : Prop := drawn gen n n' t ∨ ¬ drawn gen' n n' t.
  Lemma exch_apart : stay_apart kept_fp exch.
  Proof using Hd Hd'.
    assert (∀ a b, kept_fp b → drawn gen n n' a → ¬ drawn gen n n' b → exch a ≠ exch b) as Hx.
    { intros a b [Hb|Hb] (i & Hi & ->) Hn E; [done|]. rewrite exch_drawn, exch_other in E by done. destruct Hb. exists i. by rewrite E. }
    intros a b Ha Hb E. destruct (drawn_dec a) as [Da|Da], (drawn_dec b) as [Db|Db].
    - destruct Da as (i & Hi & ->), Db as (k & Hk & ->). rewrite !exch_drawn in E by done. apply id_inj, Hd' in E; [|done..]. by subst.
    - by destruct (Hx a b).
    - by destruct (Hx b a).
    - by rewrite !exch_other in E.
  Qed.
  Lemma exch_set (s : gset str) : (∀ t, t ∈ s → ¬ drawn gen n n' t) → set_map (D:=gset str) exch s = s.
  Proof.
    intros H. apply set_eq. intros t. rewrite elem_of_map. split.
    - intros (x & -> & Hx). by rewrite exch_other by auto.
    - intros Ht. exists t. split; [|done]. by rewrite exch_other by auto.
  Qed.
  Lemma exch_post p : (∀ t, has_tag p t → ¬ drawn gen n n' t) → retag_post exch p = p.
  Proof. intros H. unfold retag_post. rewrite exch_set by done. by destruct p as [r []]. Qed.
  Lemma exch_same tps : free_of gen n n' tps → retag exch <$> tps = tps.
  Proof.
    intros H. rewrite <- (list_fmap_id tps) at 2. apply list_fmap_ext. intros i tp Hi. unfold retag. destruct tp as [h ps]. cbn. f_equal.
    rewrite <- (list_fmap_id ps) at 2. apply list_fmap_ext. intros k p Hk. apply exch_post. intros t. apply H.
    apply elem_of_list_bind. exists (TP h ps). split; by eapply elem_of_list_lookup_2.
  Qed.

  Lemma fpgen_used ho ho' (id id' : str) p : hash_order_ok ho → hash_order_ok ho' → (fpgen_posting ho id p).1 = (fpgen_posting ho' id' p).1.
  Proof.
    intros Hho Hho'. unfold fpgen_posting.
    assert (existsb is_fingerprint (ho_set ho (tags (pi_comment p))) = existsb is_fingerprint (ho_set ho' (tags (pi_comment p)))) as ->.
    { apply Bool.eq_iff_eq_true. rewrite !existsb_exists. setoid_rewrite <- elem_of_list_In.
      split; intros (x & Hx & E); exists x; (split; [|done]); revert Hx; rewrite (ho_set_elem ho), (ho_set_elem ho') by done; auto. }
    by destruct (existsb _ _).
  Qed.
  Lemma fpgen_post_exch ho ho' i p : hash_order_ok ho → hash_order_ok ho' → n ≤ i → i + (if (fpgen_posting ho (gen i) p).1 then 1 else 0) ≤ n' →
    (∀ t, has_tag p t → ¬ drawn gen n n' t) →
    (fpgen_posting ho' (gen' i) p).2 = retag_post exch (fpgen_posting ho (gen i) p).2.
  Proof using Hd.
    intros Hho Hho' Hi Hle Hf. pose proof (fpgen_used ho ho' (gen i) (gen' i) p Hho Hho') as E. revert E Hle. unfold fpgen_posting.
    destruct (existsb _ _), (existsb _ _); cbn; try done; intros _ Hle.
    - symmetry. by apply exch_post.
    - unfold retag_post. cbn. f_equal. unfold set_tags. destruct (pi_comment p) as [ls ts vs] eqn:Ec. cbn. f_equal.
      apply set_eq. intros t. rewrite elem_of_map. setoid_rewrite elem_of_union. setoid_rewrite elem_of_singleton.
      assert (∀ x, x ∈ ts → ¬ drawn gen n n' x) as Hts. { intros x Hx. apply Hf. unfold has_tag. by rewrite Ec. }
      split.
      + intros [->|Ht].
        * exists (id_fingerprint (gen i)). split; [|by left]. rewrite exch_drawn by lia. done.
        * exists t. split; [|by right]. by rewrite exch_other by auto.
      + intros (x & -> & [->|Hx]); [left|right].
        * transitivity (exch (id_fingerprint (gen i))); [done|]. rewrite exch_drawn by lia. done.
        * by rewrite exch_other by auto.
  Qed.
  Lemma fpgen_postings_exch ho ho' i ps k ps' : hash_order_ok ho → hash_order_ok ho' → n ≤ i → k ≤ n' →
    (∀ p t, p ∈ ps → has_tag p t → ¬ drawn gen n n' t) → (∀ p t, p ∈ ps → has_tag p t → ¬ drawn gen' n n' t) →
    fpgen_postings ho gen i ps = (k, ps') →
    i ≤ k ∧ fpgen_postings ho' gen' i ps = (k, retag_post exch <$> ps') ∧ ∀ p t, p ∈ ps' → has_tag p t → kept_fp t.
  Proof using Hd.
    intros Hho Hho'. revert i k ps'. induction ps as [|p ps IH]; intros i k ps' Hi Hk Hf Hf' H.
    { cbn in H. injection H as <- <-. split_and!; [done..|]. intros p t Hp. by apply elem_of_nil in Hp. }
    cbn [fpgen_postings] in H. destruct (fpgen_posting ho (gen i) p) as [used q] eqn:Hp.
    destruct (fpgen_postings ho gen (if used then S i else i) ps) as [k2 qs] eqn:Hps. injection H as <- <-.
    destruct (IH (if used then S i else i) k2 qs) as (Hle & E & Hkf); [destruct used; lia|done| | |done|].
    { intros x t Hx. apply Hf. by right. }
    { intros x t Hx. apply Hf'. by right. }
    pose proof (fpgen_used ho ho' (gen i) (gen' i) p Hho Hho') as Hu.
    pose proof (fpgen_post_exch ho ho' i p Hho Hho' Hi) as Hq. rewrite Hp in Hu, Hq. cbn [fst snd] in Hu, Hq.
    split_and!; [destruct used; lia| |].
    - cbn [fpgen_postings]. destruct (fpgen_posting ho' (gen' i) p) as [used' q']. cbn [fst snd] in Hu, Hq. subst used'. rewrite E, Hq; [done|destruct used; lia|].
      intros t. apply Hf. by left.
    - intros x t [->|Hx]%elem_of_cons Ht; [|by apply (Hkf x)].
      destruct (fpgen_posting_spec ho gen i p used q Hho Hp) as (_ & _ & Hs). apply Hs in Ht as [Ht|[-> ->]].
      + right. apply (Hf' p); [by left|done].
      + left. exists i. split; [lia|done].
  Qed.
  Lemma free_cons g tp tps : free_of g n n' (tp :: tps) → (∀ p t, p ∈ tp_posts tp → has_tag p t → ¬ drawn g n n' t) ∧ free_of g n n' tps.
  Proof.
    intros H. split; intros p t Hp; apply H; unfold all_posts in *; rewrite bind_cons; apply elem_of_app; [by left|by right].
  Qed.
  Lemma fpgen_mono ho i tps k tps' : hash_order_ok ho → fpgen_trns ho gen i tps = (k, tps') → i ≤ k.
  Proof.
    intros Hho. revert i k tps'. induction tps as [|tp tps IH]; intros i k tps' H; cbn in H; [by injection H as <- <-|].
    destruct (fpgen_postings ho gen i (tp_posts tp)) as [k1 ps1] eqn:E1. destruct (fpgen_trns ho gen k1 tps) as [k2 ps2] eqn:E2. injection H as <- <-.
    apply IH in E2. apply fpgen_postings_spec in E1 as [? _]; [lia|done].
  Qed.
  Lemma fpgen_trns_exch ho ho' i tps k tps' : hash_order_ok ho → hash_order_ok ho' → n ≤ i → k ≤ n' →
    free_of gen n n' tps → free_of gen' n n' tps → fpgen_trns ho gen i tps = (k, tps') →
    fpgen_trns ho' gen' i tps = (k, retag exch <$> tps') ∧ only_fps kept_fp tps'.
  Proof using Hd.
    intros Hho Hho'. revert i k tps'. induction tps as [|tp tps IH]; intros i k tps' Hi Hk Hf Hf' H.
    { cbn in H. injection H as <- <-. split; [done|]. intros tp p t Hp. by apply elem_of_nil in Hp. }
    cbn [fpgen_trns] in H. destruct (fpgen_postings ho gen i (tp_posts tp)) as [k1 ps1] eqn:E1.
    destruct (fpgen_trns ho gen k1 tps) as [k2 ps2] eqn:E2. injection H as <- <-.
    apply free_cons in Hf as [Hf1 Hf2]. apply free_cons in Hf' as [Hf1' Hf2']. pose proof (fpgen_mono _ _ _ _ _ Hho E2).
    destruct (fpgen_postings_exch ho ho' i (tp_posts tp) k1 ps1 Hho Hho' Hi) as (? & E3 & Ho3); [lia|done..|].
    destruct (IH k1 k2 ps2) as (E4 & Ho4); [lia|done..|]. split.
    - cbn [fpgen_trns]. by rewrite E3, E4.
    - intros x p t [->|Hx]%elem_of_cons Hp [Hfp Ht]; [by apply (Ho3 p)|by apply (Ho4 x p t)].
  Qed.
  Lemma free_kept tps : free_of gen' n n' tps → only_fps kept_fp tps.
  Proof. intros H tp p t Htp Hp [_ Ht]. right. apply (H p); [|done]. apply elem_of_list_bind. eauto. Qed.

  Lemma runs_exch h h' m m' :
    made_retagged kept_fp exch m m' →
    Forall2 (λ r r', hash_order_ok r.1 ∧ hash_order_ok r'.1 ∧ r'.2 = retag exch <$> r.2 ∧ only_fps kept_fp r.2) h h' →
    Forall2 (alike_but exch) (outcomes m h) (outcomes m' h') ∧ made_retagged kept_fp exch (after m h) (after m' h').
  Proof using Hd Hd'.
    intros Hm H. revert m m' Hm. induction H as [|[ho s] [ho' s'] h h' (Hho & Hho' & E & Hs) H IH]; intros m m' Hm; [by split; [constructor|]|].
    cbn in *. subst s'. destruct (IH (merge ho m s).1 (merge ho' m' (retag exch <$> s)).1) as [Ho Ha]; [by constructor|].
    split; [|done]. constructor; [|done].
    by destruct (c144 kept_fp exch exch_kinds exch_apart m m' ho ho' s) as [? _].
  Qed.
End drawn.

Lemma c152 ho ho' gen gen' n n' J J1 : hash_order_ok ho → hash_order_ok ho' → fpgen_trns ho gen n J = (n', J1) →
  different_ids gen n n' → different_ids gen' n n' → free_of gen n n' J → free_of gen' n n' J →
  ∃ f, exchanges gen gen' n n' f ∧ fpgen_trns ho' gen' n J = (n', retag f <$> J1) ∧
  ∀ h h' hb hb', hash_order_ok hb → hash_order_ok hb' →
    Forall2 (λ r r', hash_order_ok r.1 ∧ hash_order_ok r'.1 ∧
      ((r.2 = J1 ∧ r'.2 = retag f <$> J1) ∨ (r'.2 = r.2 ∧ free_of gen n n' r.2 ∧ free_of gen' n n' r.2))) h h' →
    Forall2 (alike_but f) (outcomes merger_new h) (outcomes merger_new h') ∧
    build hb' (after merger_new h') = rmap (λ out : list transaction_postings, retag f <$> out) (build hb (after merger_new h)).
Proof.
  intros Hho Hho' H Hd Hd' Hf Hf'.
  destruct (fpgen_trns_exch gen gen' n n' Hd ho ho' n J n' J1) as [E Ho]; [done..|].
  exists (exch gen gen' n n'). split_and!; [by apply exch_exchanges|done|]. intros h h' hb hb' Hhb Hhb' Hr.
  destruct (runs_exch gen gen' n n' Hd Hd' h h' merger_new merger_new) as [Ha Hm]; [constructor| |].
  { eapply Forall2_impl; [exact Hr|]. intros r r' (? & ? & [[-> ->]|(-> & Hg & Hg')]); split_and!; try done.
    - symmetry. by apply exch_same.
    - by apply free_kept. }
  split; [done|]. destruct (c144 (kept_fp gen gen' n n') _ (exch_kinds gen gen' n n' Hd) (exch_apart gen gen' n n' Hd Hd') _ _ hb hb' [] Hhb Hhb' Hm) as [_ ?]; [|done].
  intros tp p t Hp. by apply elem_of_nil in Hp.
Qed.

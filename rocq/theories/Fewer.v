(** Proofs for C151: transactions that were merged are recognised from less. *)
From Verif Require Import MergeClaims.
From Verif Require Import Base Types CommentModel MergeModel SpecBase BaseProofs MergeSpec MergeClaims
  MergeProofs MergePending MergeApply MergeBuild MergeClosed MergeLemmas MergePlaces MergeLaws MergeLaws2
  MergeLaws3 MergeLaws4 MergeReplay MergeLaws5 PropsMergeProofs EditClaims MergeEdit ResolveClaims MergeResolve
  TzModel ImportClaims LegacyClaims Legacy NwCsvModel ImportRows ImportLaws FewerClaims.
From Coq Require Import Lia.
Local Open Scope nat_scope.

Lemma has_all_trans x p q : has_all x p → has_all p q → has_all x q.
Proof.
  intros [A1 A2 A3 A4 A5 A6] [B1 B2 B3 B4 B5 B6]. split; auto.
  - by etrans.
  - revert A4 B4. unfold status_le. destruct (p_status (pi_raw x)) as [[]|], (p_status (pi_raw p)) as [[]|], (p_status (pi_raw q)) as [[]|]; naive_solver.
Qed.
Lemma remerge_less m ho ho' tps tps' m' : reachable m → hash_order_ok ho → hash_order_ok ho' →
  merge ho m tps = (m', Ok []) → Forall2 says_no_more tps tps' → (∀ p, p ∈ all_posts tps' → mergeable p) →
  merge ho' m' tps' = (m', Ok []).
Proof.
  intros Hr Hho Hho' Hm HF Hmg. destruct (reachable_represents m Hr) as (j & Hj & _). pose proof (reachable_wf m j Hr Hj) as Hwf.
  destruct (merge_inv m j Hr Hj ho tps m' [] Hho Hm) as (Hv & Hwf' & Hj' & Hun).
  apply Forall2_nil_inv_r in Hun. set (j' := spec_merge j tps) in *.
  assert (∀ tp, tp ∈ tps → left_out j tp = false) as El.
  { intros tp Htp. destruct (left_out j tp) eqn:E; [|done].
    assert (tp ∈ filter (λ tp, left_out j tp = true) tps) as H by by apply elem_of_list_filter.
    rewrite Hun in H. by apply elem_of_nil in H. }
  assert (reachable m') as Hr'.
  { assert (m' = (merge ho m tps).1) as -> by by rewrite Hm. by constructor. }
  set (trn := λ a, match the_places j tps !! a with Some (t, _) => t | None => 0 end).
  set (loc := λ a b, match the_places j tps !! a with Some (_, ls) => default 0 (ls !! b) | None => 0 end).
  assert (∀ a b tp p, tps !! a = Some tp → tp_posts tp !! b = Some p → ∃ t ls, the_places j tps !! a = Some (t, ls) ∧
    ls !! b = Some (loc a b) ∧ trn a = t ∧ ∃ x, j_posts j' !! loc a b = Some x ∧ jp_trn x = t ∧ has_all (jp_post x) p) as Hg.
  { intros a b tp p Ha Hb. assert (a < length (the_places j tps)) as Hlt.
    { unfold the_places. rewrite places_length. by eapply lookup_lt_Some. }
    apply lookup_lt_is_Some in Hlt as [[t ls] Epl]. exists t, ls.
    assert (tp ∈ tps) as Htp by by eapply elem_of_list_lookup_2.
    destruct (place_of j tps Hwf Hv a tp t ls Ha (El _ Htp) Epl) as [Hlen H].
    assert (b < length ls) as Hlt by (rewrite Hlen; by eapply lookup_lt_Some).
    apply lookup_lt_is_Some in Hlt as [i Ei]. unfold trn, loc. rewrite Epl, Ei. cbn [default]. split_and!; [done|done|done|].
    destruct (H b p i Hb Ei) as [[(x & _ & _ & _ & _ & Hn)|(_ & _ & Hn)]]; (eexists; split_and!; [exact Hn|done|]); cbn [jp_post].
    - apply has_all_merged.
    - apply has_all_self. }
  assert (∀ a tp', tps' !! a = Some tp' → ∃ tp, tps !! a = Some tp ∧ Forall2 has_all (tp_posts tp) (tp_posts tp')) as Hback.
  { intros a tp' Ha. destruct (Forall2_lookup_r _ _ _ _ _ HF Ha) as (tp & ? & ?). eauto. }
  apply (contained_merge m' j' Hr' Hj' tps' trn loc); [| | | |done].
  - intros tp' [a Ha]%elem_of_list_lookup E0. destruct (Hback a tp' Ha) as (tp & Htp & HP). rewrite E0 in HP. apply Forall2_nil_inv_r in HP.
    assert (left_out j tp = false) as E by by eapply El, elem_of_list_lookup_2. apply to_merge_spec in E. by apply E.
  - exact Hmg.
  - intros a b tp' p' Ha Hb. destruct (Hback a tp' Ha) as (tp & Htp & HP). destruct (Forall2_lookup_r _ _ _ _ _ HP Hb) as (p & Hp & Hpp).
    destruct (Hg a b tp p Htp Hp) as (t & ls & _ & _ & -> & x & Hx & Hxt & H). exists x. split_and!; [done|done|]. by eapply has_all_trans.
  - intros a b a' b' tp1 tp2 Ha Hb Ha' Hb' E. destruct (Hback a tp1 Ha) as (tp & Htp & E1%Forall2_length), (Hback a' tp2 Ha') as (tp' & Htp' & E2%Forall2_length).
    rewrite <- E1 in Hb. rewrite <- E2 in Hb'. apply lookup_lt_is_Some in Hb as [p Hp]. apply lookup_lt_is_Some in Hb' as [p' Hp'].
    destruct (Hg a b tp p Htp Hp) as (t & ls & Hpl & Hi & _). destruct (Hg a' b' tp' p' Htp' Hp') as (t' & ls' & Hpl' & Hi' & _).
    rewrite <- E in Hi'. pose proof (NoDup_places j tps Hwf Hv) as Hnd.
    assert (a = a') as <-.
    { eapply (NoDup_bind_pos snd (the_places j tps) a a' (t, ls) (t', ls') (loc a b)); try done; simpl; by eapply elem_of_list_lookup_2. }
    rewrite Hpl in Hpl'. injection Hpl' as <- <-. split; [done|].
    apply (NoDup_lookup ls b b' (loc a b)); [|done|done]. by apply (NoDup_bind_elem snd (the_places j tps) a (t, ls)).
Qed.

Lemma one_more_has_all ns p p' : one_more ns p p' → has_all (posting_internal_of p') (posting_internal_of p).
Proof.
  intros (E & El & Ev & f & (d & -> & _) & Ht). split; unfold has_tag, unknown_account, has_tag.
  - intros t H _. apply Ht. by left.
  - intros l. by rewrite El.
  - by rewrite Ev.
  - cbn [posting_internal_of pi_raw]. rewrite E. by left.
  - cbn [posting_internal_of pi_raw]. by rewrite E.
  - intros [H|H]%Ht; [done|]. discriminate H.
Qed.
Lemma legacy_no_more hi pd f records ns ts ts' : hash_order_ok hi →
  nw_csv_import pd hi (NwOpts true f) records = Ok (ns, ts') → nw_csv_import pd hi (NwOpts false f) records = Ok (ns, ts) →
  Forall2 says_no_more (as_merged ts') (as_merged ts).
Proof.
  intros Hhi H1 H2. apply Forall2_fmap. destruct (decide (records !! 3 = Some FIVE_HEADERS)) as [E|E].
  - rewrite (c149_five pd hi f records E), H2 in H1. injection H1 as <-. apply Forall_Forall2_diag, Forall_true. intros t.
    unfold compose, says_no_more. apply Forall_Forall2_diag, Forall_true. apply has_all_self.
  - pose proof (c149_nationwide pd hi f records Hhi E) as H. rewrite H1, H2 in H. destruct H as [_ H]. cbn in H.
    apply Forall2_flip. eapply Forall2_impl; [exact H|]. intros t t' [_ HP]. unfold flip, says_no_more. cbn.
    apply Forall2_fmap, Forall2_flip. eapply Forall2_impl; [exact HP|]. intros p p'. apply one_more_has_all.
Qed.
Lemma without_again m ho ho' hi pd f records ns ts ts' m' : reachable m → hash_order_ok ho → hash_order_ok ho' → hash_order_ok hi →
  parser_ok pd → fields_ok records →
  nw_csv_import pd hi (NwOpts true f) records = Ok (ns, ts') → nw_csv_import pd hi (NwOpts false f) records = Ok (ns, ts) →
  merge ho m (as_merged ts') = (m', Ok []) → merge ho' m' (as_merged ts) = (m', Ok []).
Proof.
  intros Hr Hho Hho' Hhi Hpd Hf H1 H2 Hm. eapply remerge_less; [exact Hr|exact Hho|exact Hho'|exact Hm| |].
  - by apply (legacy_no_more hi pd f records ns).
  - intros p. by apply (import_mergeable pd hi (NwOpts false f) records ns ts).
Qed.

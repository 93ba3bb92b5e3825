(** Proofs for C150: transactions that were merged are recognised on any date. *)
From Verif Require Import MergeClaims.
From Verif Require Import Base Types CommentModel MergeModel SpecBase BaseProofs MergeSpec MergeClaims
  MergeProofs MergePending MergeApply MergeBuild MergeClosed MergeLemmas MergePlaces MergeLaws MergeLaws2
  MergeLaws3 MergeLaws4 MergeReplay MergeLaws5 PropsMergeProofs EditClaims MergeEdit ResolveClaims MergeResolve
  TzModel PaypalModel ImportClaims ImportPaypal LegacyClaims Legacy ZoneClaims.
From Coq Require Import Lia.
Local Open Scope nat_scope.

Lemma remerge_headers m ho ho' tps tps' m' : reachable m → hash_order_ok ho → hash_order_ok ho' →
  merge ho m tps = (m', Ok []) → Forall2 same_postings tps tps' → merge ho' m' tps' = (m', Ok []).
Proof.
  intros Hr Hho Hho' Hm HF. destruct (reachable_represents m Hr) as (j & Hj & _). pose proof (reachable_wf m j Hr Hj) as Hwf.
  destruct (merge_inv m j Hr Hj ho tps m' [] Hho Hm) as (Hv & Hwf' & Hj' & Hun).
  apply Forall2_nil_inv_r in Hun. set (j' := spec_merge j tps) in *.
  assert (∀ tp, tp ∈ tps → left_out j tp = false) as El.
  { intros tp Htp. destruct (left_out j tp) eqn:E; [|done].
    assert (tp ∈ filter (λ tp, left_out j tp = true) tps) as H by by apply elem_of_list_filter.
    rewrite Hun in H. by apply elem_of_nil in H. }
  assert (reachable m') as Hr'.
  { assert (m' = (merge ho m tps).1) as -> by by rewrite Hm. by constructor. }
  set (trn := λ a, match the_places j tps !! a with Some (t, _) => t | None => 0 end).
  set (loc := λ a b, match the_places j tps !! a with Some (_, ls) => default 0 (ls !! b) | None => 0 end).
  assert (∀ a b tp p, tps !! a = Some tp → tp_posts tp !! b = Some p → ∃ t ls, the_places j tps !! a = Some (t, ls) ∧
    ls !! b = Some (loc a b) ∧ trn a = t ∧ ∃ x, j_posts j' !! loc a b = Some x ∧ jp_trn x = t ∧ has_all (jp_post x) p) as Hg.
  { intros a b tp p Ha Hb. assert (a < length (the_places j tps)) as Hlt.
    { unfold the_places. rewrite places_length. by eapply lookup_lt_Some. }
    apply lookup_lt_is_Some in Hlt as [[t ls] Epl]. exists t, ls.
    assert (tp ∈ tps) as Htp by by eapply elem_of_list_lookup_2.
    destruct (place_of j tps Hwf Hv a tp t ls Ha (El _ Htp) Epl) as [Hlen H].
    assert (b < length ls) as Hlt by (rewrite Hlen; by eapply lookup_lt_Some).
    apply lookup_lt_is_Some in Hlt as [i Ei]. unfold trn, loc. rewrite Epl, Ei. cbn [default]. split_and!; [done|done|done|].
    destruct (H b p i Hb Ei) as [[(x & _ & _ & _ & _ & Hn)|(_ & _ & Hn)]]; (eexists; split_and!; [exact Hn|done|]); cbn [jp_post].
    - apply has_all_merged.
    - apply has_all_self. }
  assert (∀ a tp', tps' !! a = Some tp' → ∃ tp, tps !! a = Some tp ∧ tp_posts tp' = tp_posts tp) as Hback.
  { intros a tp' Ha. destruct (Forall2_lookup_r _ _ _ _ _ HF Ha) as (tp & ? & ?). eauto. }
  apply (contained_merge m' j' Hr' Hj' tps' trn loc); [| | | |done].
  - intros tp' [a Ha]%elem_of_list_lookup. destruct (Hback a tp' Ha) as (tp & Htp & ->).
    assert (left_out j tp = false) as E by by eapply El, elem_of_list_lookup_2. apply to_merge_spec in E. apply E.
  - intros p (tp' & Hp & [a Ha]%elem_of_list_lookup)%elem_of_list_bind. destruct (Hback a tp' Ha) as (tp & Htp & E). rewrite E in Hp.
    apply (vs_mergeable _ _ Hv). apply elem_of_list_bind. exists tp. split; [done|by eapply elem_of_list_lookup_2].
  - intros a b tp' p Ha Hb. destruct (Hback a tp' Ha) as (tp & Htp & E). rewrite E in Hb.
    destruct (Hg a b tp p Htp Hb) as (t & ls & _ & _ & -> & H). exact H.
  - intros a b a' b' tp1 tp2 Ha Hb Ha' Hb' E. destruct (Hback a tp1 Ha) as (tp & Htp & E1), (Hback a' tp2 Ha') as (tp' & Htp' & E2).
    rewrite E1 in Hb. rewrite E2 in Hb'. apply lookup_lt_is_Some in Hb as [p Hp]. apply lookup_lt_is_Some in Hb' as [p' Hp'].
    destruct (Hg a b tp p Htp Hp) as (t & ls & Hpl & Hi & _). destruct (Hg a' b' tp' p' Htp' Hp') as (t' & ls' & Hpl' & Hi' & _).
    rewrite <- E in Hi'. pose proof (NoDup_places j tps Hwf Hv) as Hnd.
    assert (a = a') as <-.
    { eapply (NoDup_bind_pos snd (the_places j tps) a a' (t, ls) (t', ls') (loc a b)); try done; simpl; by eapply elem_of_list_lookup_2. }
    rewrite Hpl in Hpl'. injection Hpl' as <- <-. split; [done|].
    apply (NoDup_lookup ls b b' (loc a b)); [|done|done]. by apply (NoDup_bind_elem snd (the_places j tps) a (t, ls)).
Qed.

Lemma zone_alike ho legacy tz tz' db ns rows :
  both (Forall2 other_date) (pp_import ho legacy tz db ns rows) (pp_import ho legacy tz' db ns rows).
Proof.
  unfold pp_import. destruct (rmapM (from_csv_record db ns) rows) as [records| |]; [|done..]. cbn [rbind].
  induction (chunk_by _ records) as [|[t g] gs IH]; [constructor|]. cbn [rmapM].
  eapply (both_bind other_date).
  - unfold pp_form_transaction. cbn [fst snd]. destruct (find_map _ _) as [n|]; [|done]. reflexivity.
  - intros x x' Hx. eapply both_bind; [exact IH|]. intros l l' Hl. by constructor.
Qed.
Lemma zone_again m ho ho' hi legacy tz tz' db ns rows ts ts' m' : reachable m → hash_order_ok ho → hash_order_ok ho' →
  pp_import hi legacy tz db ns rows = Ok ts → pp_import hi legacy tz' db ns rows = Ok ts' →
  merge ho m (transaction_postings_of <$> ts) = (m', Ok []) → merge ho' m' (transaction_postings_of <$> ts') = (m', Ok []).
Proof.
  intros Hr Hho Hho' H1 H2 Hm. pose proof (zone_alike hi legacy tz tz' db ns rows) as H. rewrite H1, H2 in H. cbn in H.
  eapply remerge_headers; [exact Hr|exact Hho|exact Hho'|exact Hm|]. apply Forall2_fmap. eapply Forall2_impl; [exact H|].
  intros t t' ->. done.
Qed.

(** Proofs for C153: two copies of one journal that were given fingerprints separately. *)
From stdpp Require Import gmap list.
From Verif Require Import MergeClaims.
From Verif Require Import Base Types CommentModel MergeModel CmdModel SpecBase BaseProofs MergeSpec MergeClaims
  MergeProofs MergeLemmas PropsMergeProofs CommentClaims CmdClaims CmdFp TwinClaims Twin HandClaims Hand DrawnClaims CopiesClaims.
From Coq Require Import Lia.
Local Open Scope nat_scope.

Lemma idf_inj a b : id_fingerprint a = id_fingerprint b → a = b.
Proof. unfold id_fingerprint. intros E. by apply app_inv_head in E. Qed.
Lemma merged_both gen gen' p p1 p2 : (∀ f, ¬ has_fp p f) → fingerprint_added gen p p1 → fingerprint_added gen' p p2 →
  both_ids gen gen' p (merge_posting p1 p2).
Proof.
  intros Hno [[[f Hf] _]|(_ & R1 & L1 & V1 & i & T1)] [[[f' Hf'] _]|(_ & R2 & L2 & V2 & k & T2)]; try (by destruct (Hno f)); try (by destruct (Hno f')).
  assert (UNKNOWN_ACCOUNT ∈ tags (pi_comment p1) ↔ UNKNOWN_ACCOUNT ∈ tags (pi_comment p2)) as Hu.
  { pose proof (T1 UNKNOWN_ACCOUNT) as A. pose proof (T2 UNKNOWN_ACCOUNT) as B. unfold has_tag in A, B. rewrite A, B.
    pose proof (unknown_not_id (gen i)). pose proof (unknown_not_id (gen' k)). naive_solver. }
  split_and!.
  - rewrite <- R1. unfold merge_posting. rewrite (bool_decide_ext _ _ Hu), andb_negb_r, R2, <- R1. cbn.
    destruct (pi_raw p1) as [ac re am ba st co]. cbn. destruct st as [[]|]; cbn; destruct ba; done.
  - rewrite merge_posting_lines, L1, L2. apply merge_lines_sub. done.
  - rewrite merge_posting_values, V1, V2. apply map_union_idemp.
  - exists i, k. intros t. pose proof (T1 t) as A. pose proof (T2 t) as B. unfold has_tag in *. rewrite merge_posting_tags. destruct (decide _) as [->|Hne].
    + pose proof (unknown_not_id (gen i)). pose proof (unknown_not_id (gen' k)). unfold id_fingerprint. rewrite A, B. naive_solver.
    + rewrite A, B. unfold id_fingerprint. tauto.
Qed.
Lemma added_soft_r gen p p' q : fingerprint_added gen p p' → soft_match q p' ↔ soft_match q p.
Proof. intros H. unfold soft_match. by rewrite (added_raw gen p p' H), (added_unknown gen p p' H). Qed.

Lemma no_fps J : unmarked J → ∀ p f, p ∈ all_posts J → ¬ has_fp p f.
Proof. intros [H _] p f Hp [Hf Ht]. by destruct (H p f Hp Ht). Qed.

Definition paired_copies (J J2 : list transaction_postings) : paired := zip_with (λ tp tp2, (tp, Some (tp2, tp_posts tp2))) J J2.
Lemma copies_first J J2 : length J = length J2 → first_source (paired_copies J J2) = J.
Proof.
  revert J2. induction J as [|tp J IH]; intros [|tp2 J2] H; try done. unfold first_source, paired_copies in *. cbn. f_equal. apply IH. by injection H.
Qed.
Lemma copies_second J J2 : length J = length J2 → second_source (paired_copies J J2) [] = J2.
Proof.
  revert J2. induction J as [|tp J IH]; intros [|tp2 J2] H; try done. unfold second_source, paired_copies in *. cbn. f_equal. apply IH. by injection H.
Qed.
Lemma copies_at J J2 a tp o : paired_copies J J2 !! a = Some (tp, o) → ∃ tp2, J !! a = Some tp ∧ J2 !! a = Some tp2 ∧ o = Some (tp2, tp_posts tp2).
Proof. intros H. apply lookup_zip_with_Some in H as (x & y & E & Hx & Hy). injection E as -> ->. eauto. Qed.

Lemma copies_hand_bank gen' ho' k k' J J2 : hash_order_ok ho' → fpgen_trns ho' gen' k J = (k', J2) → unmarked J → told_apart J →
  (∀ i k, gen' i = gen' k → i = k) → hand_and_bank (paired_copies J J2) [].
Proof.
  intros Hho' H2 Hu Ht Hi. pose proof (fpgen_trns_added _ _ _ _ _ _ Hho' H2) as Ha.
  assert (length J = length J2) as Hl by (by eapply Forall2_length). pose proof (no_fps J Hu) as Hno.
  split; rewrite ?copies_first, ?copies_second by done.
  - intros p t Hp Htag. by apply (um_tags _ Hu p t).
  - intros p Hp. split; [by eapply c60_all|]. intros t Htag. eapply (fpgen_candidates ho' gen' k J k' J2); try done.
    intros p0 t0 Hp0 Ht0. by apply (um_tags _ Hu p0 t0).
  - assert (fps_distinct (all_posts J2)) as Hd2.
    { eapply (c60_distinct ho' gen' k J k'); [done|done| | |].
      - intros i j p q Hip _ (f & Hf & _). apply elem_of_list_lookup_2 in Hip. by destruct (Hno p f).
      - intros i j _ _. apply Hi.
      - intros i p _ Hp Htag. apply (Hno p (s2l "fp-uuidb64-" ++ gen' i)); [done|]. split; [|done]. by exists (s2l "uuidb64-" ++ gen' i). }
    intros i j p q Hip Hjq (f & Hf & Hf').
    apply lookup_app_Some in Hip as [Hip|[Li Hip]]; [apply elem_of_list_lookup_2 in Hip; by destruct (Hno p f)|].
    apply lookup_app_Some in Hjq as [Hjq|[Lj Hjq]]; [apply elem_of_list_lookup_2 in Hjq; by destruct (Hno q f)|].
    assert (i - length (all_posts J) = j - length (all_posts J)); [|lia]. apply (Hd2 _ _ p q Hip Hjq). by exists f.
  - intros tp. rewrite app_nil_r. apply (um_posts _ Hu).
  - intros tp tp' qs (a & Hx)%elem_of_list_lookup. apply copies_at in Hx as (tp2 & A & B & E). injection E as -> ->.
    destruct (Forall2_lookup_lr _ _ _ _ _ _ Ha A B) as [T P]. split_and!; [unfold tp_date; by rewrite T|done|].
    eapply Forall2_impl; [exact P|]. intros p p' Hp. apply (added_soft_r gen' p p' p Hp), soft_match_refl.
  - intros a a' b b' tp o tp' tp'' qs p q Hx Hx' Hp Hq Hd Hs. apply copies_at in Hx as (_ & A & _ & _). apply copies_at in Hx' as (tp2 & A' & B' & E). injection E as -> ->.
    destruct (Forall2_lookup_lr _ _ _ _ _ _ Ha A' B') as [T P]. destruct (Forall2_lookup_r _ _ _ _ _ P Hq) as (q0 & Hq0 & Hadd).
    apply (Ht a a' b b' tp tp'' p q0); try done.
    + rewrite Hd. unfold tp_date. by rewrite T.
    + by apply (added_soft_r gen' q0 q p Hadd).
  - intros tp tp' p q _ Hn. by apply elem_of_nil in Hn.
Qed.

Lemma c153 ho ho' gen gen' n n' k k' J J1 J2 ho1 ho2 : hash_order_ok ho → hash_order_ok ho' → hash_order_ok ho1 → hash_order_ok ho2 →
  fpgen_trns ho gen n J = (n', J1) → fpgen_trns ho' gen' k J = (k', J2) →
  unmarked J → told_apart J → separate_ids gen gen' →
  ∃ m1 m out, merge ho1 merger_new J1 = (m1, Ok []) ∧ merge ho2 m1 J2 = (m, Ok []) ∧ all_both_ids gen gen' J out ∧
    (∀ hb, hash_order_ok hb → build hb m = Ok (stable_sort (by_key tp_date) out)) ∧
    (∀ ho3, hash_order_ok ho3 → merge ho3 m J2 = (m, Ok [])).
Proof.
  intros Hho Hho' Hho1 Hho2 H1 H2 Hu Ht (Hi & Hi' & Hii).
  pose proof (fpgen_trns_added _ _ _ _ _ _ Hho' H2) as Ha2. pose proof (fpgen_trns_added _ _ _ _ _ _ Hho H1) as Ha1.
  assert (length J = length J2) as Hl by (by eapply Forall2_length). pose proof (no_fps J Hu) as Hno.
  assert (∀ p t, p ∈ all_posts J2 → has_tag p t → fp_tag t → ∃ i, t = s2l "fp-uuidb64-" ++ gen' i) as Htags.
  { intros p t (tp2 & Hp & (a & B)%elem_of_list_lookup)%elem_of_list_bind Htag Hf.
    destruct (Forall2_lookup_r _ _ _ _ _ Ha2 B) as (tp & A & _ & P). apply elem_of_list_lookup in Hp as (b & Hb).
    destruct (Forall2_lookup_r _ _ _ _ _ P Hb) as (p0 & Hp0 & Hadd).
    assert (p0 ∈ all_posts J) as Hin. { apply elem_of_list_bind. exists tp. split; by eapply elem_of_list_lookup_2. }
    destruct Hadd as [[[f Hf0] _]|(_ & _ & _ & _ & i & T)]; [by destruct (Hno p0 f)|]. apply T in Htag as [Htag|Htag]; [|by exists i].
    destruct (Hno p0 t); done. }
  pose proof (copies_hand_bank gen' ho' k k' J J2 Hho' H2 Hu Ht Hi') as Hhb.
  destruct (c118_joined (paired_copies J J2) [] ho gen n n' J1 ho1 ho2 Hhb Hho Hho1 Hho2) as (w' & m1 & m & (F1 & F2) & F3 & _ & M1 & M2 & B & R).
  { rewrite copies_first, copies_second by done. split; [done|]. intros i p [Hp|Hp]%elem_of_app Htag.
    - apply (Hno p (s2l "fp-uuidb64-" ++ gen i)); [done|]. split; [|done]. by exists (s2l "uuidb64-" ++ gen i).
    - destruct (Htags p _ Hp Htag) as [i' E]; [by exists (s2l "uuidb64-" ++ gen i)|]. apply app_inv_head in E. by destruct (Hii i i'). }
  { by rewrite copies_first by done. }
  rewrite copies_second in M2, R by done.
  exists m1, m, (joined <$> w'). split_and!; [done|done| | |done].
  2:{ intros hb Hb. rewrite (B hb Hb). by rewrite app_nil_r. }
  apply Forall2_same_length_lookup_2.
  { rewrite fmap_length. apply (f_equal length) in F2. rewrite !fmap_length in F2. rewrite F2. unfold paired_copies. rewrite zip_with_length. lia. }
  intros a tp out A Ho. rewrite list_lookup_fmap in Ho. destruct (w' !! a) as [[tp1 o]|] eqn:Hw; [|done]. injection Ho as <-.
  assert (J1 !! a = Some tp1) as A1 by (rewrite <- F3; unfold first_source; by rewrite list_lookup_fmap, Hw).
  assert (w'.*2 !! a = Some o) as Ho by (by rewrite list_lookup_fmap, Hw). rewrite F2, list_lookup_fmap in Ho.
  destruct (paired_copies J J2 !! a) as [[tp0 o0]|] eqn:Hc; [|done]. injection Ho as ->. apply copies_at in Hc as (tp2 & A0 & A2 & ->).
  destruct (Forall2_lookup_lr _ _ _ _ _ _ Ha1 A A1) as [T1 P1]. destruct (Forall2_lookup_lr _ _ _ _ _ _ Ha2 A A2) as [T2 P2].
  unfold joined. cbn. split; [done|].
  apply Forall2_same_length_lookup_2.
  { rewrite zip_with_length. apply Forall2_length in P1, P2. lia. }
  intros b p q Hp Hq. apply lookup_zip_with_Some in Hq as (x & y & -> & Hx & Hy).
  apply (merged_both gen gen'); [|by eapply (Forall2_lookup_lr _ _ _ _ _ _ P1)|by eapply (Forall2_lookup_lr _ _ _ _ _ _ P2)].
  intros f. apply Hno. apply elem_of_list_bind. exists tp. split; by eapply elem_of_list_lookup_2.
Qed.

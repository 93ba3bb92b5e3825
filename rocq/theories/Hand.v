(** Proofs for C118: fingerprints generated for a journal written by hand, which is
    then merged with a statement of the bank. *)
From Verif Require Import Base Types CommentModel MergeModel CmdModel SpecBase BaseProofs MergeSpec MergeClaims
  MergeProofs MergeLemmas PropsMergeProofs CommentClaims CmdClaims CmdProofs CmdMerge CmdMerge2 CmdIdem CmdFp HeaderClaims HeaderLaws CmdPlain ReRun
  PiecesClaims TwinClaims Twin HandClaims.
From Coq Require Import Lia.
Local Open Scope nat_scope.

Lemma added_raw gen p p' : fingerprint_added gen p p' → pi_raw p' = pi_raw p.
Proof. by intros [[_ ->]|(_ & -> & _)]. Qed.
Lemma unknown_not_id id : s2l "unknown-account" ≠ s2l "fp-uuidb64-" ++ id.
Proof. cbn [s2l app]. intros [=]. Qed.
Lemma added_unknown gen p p' : fingerprint_added gen p p' → unknown_account p' ↔ unknown_account p.
Proof.
  intros [[_ ->]|(_ & Hr & _ & _ & n & Ht)]; [done|]. unfold unknown_account. rewrite Ht. split; [|by left].
  intros [H|H]; [done|]. by apply unknown_not_id in H.
Qed.
Lemma added_soft gen p p' q : fingerprint_added gen p p' → soft_match p' q ↔ soft_match p q.
Proof. intros H. unfold soft_match. by rewrite (added_raw gen p p' H), (added_unknown gen p p' H). Qed.

Lemma fingerprinted_length gen w w' : fingerprinted gen w w' → length w' = length w.
Proof. intros [_ H]. apply (f_equal length) in H. by rewrite !fmap_length in H. Qed.
Lemma fingerprinted_at gen w w' a tp' o : fingerprinted gen w w' → w' !! a = Some (tp', o) →
  ∃ tp, w !! a = Some (tp, o) ∧ tp_trn tp' = tp_trn tp ∧ Forall2 (fingerprint_added gen) (tp_posts tp) (tp_posts tp').
Proof.
  intros [H1 H2] Ha.
  assert (w'.*2 !! a = Some o) as Ho by (by rewrite list_lookup_fmap, Ha).
  rewrite H2, list_lookup_fmap in Ho. destruct (w !! a) as [[tp o']|] eqn:Hw; [|done]. injection Ho as ->.
  exists tp. split; [done|]. unfold fingerprints_added, first_source in H1.
  apply (Forall2_lookup_lr _ _ _ a tp tp' H1); by rewrite list_lookup_fmap, ?Hw, ?Ha.
Qed.
Lemma fingerprinted_in gen w w' tp' : fingerprinted gen w w' → tp' ∈ first_source w' →
  ∃ tp, tp ∈ first_source w ∧ tp_trn tp' = tp_trn tp ∧ Forall2 (fingerprint_added gen) (tp_posts tp) (tp_posts tp').
Proof.
  intros H Hin. unfold first_source in Hin. apply elem_of_list_fmap in Hin as ([x o] & -> & Hin).
  apply elem_of_list_lookup in Hin as [a Ha]. destruct (fingerprinted_at gen w w' a x o H Ha) as (tp & Hw & Ht).
  exists tp. split; [|done]. apply elem_of_list_fmap. exists (tp, o). split; [done|]. by eapply elem_of_list_lookup_2.
Qed.
Lemma same_second w w' extra : w'.*2 = w.*2 → second_source w' extra = second_source w extra.
Proof.
  intros H. unfold second_source. f_equal.
  assert (∀ w : paired, omap (λ x, fst <$> x.2) w = omap (λ o, fst <$> o) (w.*2)) as E; [|by rewrite !E, H].
  clear. induction w as [|[tp [[tp' qs]|]] w IH]; [done| |]; csimpl; by rewrite IH.
Qed.
Lemma fpgen_trns_length ho gen n tps n' tps' : hash_order_ok ho → fpgen_trns ho gen n tps = (n', tps') → length tps' = length tps.
Proof. intros Hho H. symmetry. eapply Forall2_length. by eapply fpgen_trns_added. Qed.
Lemma all_posts_app a b : all_posts (a ++ b) = all_posts a ++ all_posts b.
Proof. unfold all_posts. by rewrite bind_app. Qed.

Section hand.
  Context (w : paired) (extra' : list transaction_postings) (Hhb : hand_and_bank w extra').
  Context (ho : hash_order) (gen : nat → str) (n n' : nat) (tps' : list transaction_postings).
  Context (Hho : hash_order_ok ho) (Hgen : fpgen_trns ho gen n (first_source w) = (n', tps')).
  Context (Hids : new_ids gen (all_posts (first_source w) ++ all_posts (second_source w extra'))).
  Let w' : paired := zip tps' (w.*2).

  Lemma hand_len : length tps' = length (w.*2).
  Proof. rewrite (fpgen_trns_length ho gen n (first_source w) n' tps' Hho Hgen). unfold first_source. by rewrite !fmap_length. Qed.
  Lemma hand_first : first_source w' = tps'.
  Proof. unfold first_source, w'. apply fst_zip. by rewrite hand_len. Qed.
  Lemma hand_second2 : w'.*2 = w.*2.
  Proof. unfold w'. apply snd_zip. by rewrite hand_len. Qed.
  Lemma hand_fingerprinted : fingerprinted gen w w'.
  Proof. split; [|exact hand_second2]. rewrite hand_first. by eapply fpgen_trns_added. Qed.
  Lemma hand_fps : fps_distinct (all_posts (first_source w') ++ all_posts (second_source w' extra')).
  Proof.
    rewrite hand_first, (same_second w w' extra' hand_second2), <- all_posts_app.
    destruct Hids as [Hi Hf]. eapply (c60_distinct ho gen n (first_source w ++ second_source w extra') n').
    - done.
    - rewrite fpgen_trns_app, Hgen. rewrite (c60_again ho gen n' (second_source w extra') Hho); [done|].
      intros p Hp. by apply (hb_bank _ _ Hhb).
    - rewrite all_posts_app. exact (hb_distinct _ _ Hhb).
    - intros i k _ _. apply Hi.
    - intros i p _. rewrite all_posts_app. apply Hf.
  Qed.
  Lemma hand_two_sources : two_sources w' extra'.
  Proof.
    pose proof hand_fingerprinted as Hfp. split.
    - intros p [Hp|Hp]%elem_of_app.
      + rewrite hand_first in Hp. split; [exact (c60_all _ _ _ _ _ _ _ Hho Hgen Hp)|].
        intros t Ht. exact (fpgen_candidates _ _ _ _ _ _ _ _ Hho Hgen (hb_hand _ _ Hhb) Hp Ht).
      + rewrite (same_second w w' extra' hand_second2) in Hp. by apply (hb_bank _ _ Hhb).
    - exact hand_fps.
    - intros tp [Htp|Htp]%elem_of_app.
      + destruct (fingerprinted_in gen w w' tp Hfp Htp) as (tp0 & H0 & _ & H2). intros E. rewrite E in H2.
        apply Forall2_nil_inv_r in H2. apply (hb_posts _ _ Hhb tp0); [apply elem_of_app; by left|done].
      + apply (hb_posts _ _ Hhb). apply elem_of_app. by right.
    - intros tp tp' qs Hin. apply elem_of_list_lookup in Hin as [a Ha].
      destruct (fingerprinted_at gen w w' a tp _ Hfp Ha) as (tp0 & H0 & H1 & H2).
      destruct (hb_twins _ _ Hhb tp0 tp' qs) as (D & P & S); [by eapply elem_of_list_lookup_2|].
      split_and!; [unfold tp_date in *; by rewrite H1|done|].
      clear -S H2. revert qs S. induction H2 as [|p p' l l' Hp H2 IH]; intros qs S; inversion S as [|? q ? qs' Hq Hqs]; subst; [constructor|].
      constructor; [by apply (added_soft gen p p' q Hp)|by apply IH].
    - intros a a' b b' tp o tp' tp'' qs p q Ha Ha' Hb Hb' Hd Hs.
      destruct (fingerprinted_at gen w w' a tp _ Hfp Ha) as (tp0 & H0 & H1 & H2).
      destruct (fingerprinted_at gen w w' a' tp'' _ Hfp Ha') as (tp1 & H0' & _).
      destruct (Forall2_lookup_r _ _ _ _ _ H2 Hb) as (p0 & Hp0 & Hadd).
      apply (hb_apart _ _ Hhb a a' b b' tp0 o tp' tp1 qs p0 q); try done.
      + rewrite <- Hd. unfold tp_date. by rewrite H1.
      + by apply (added_soft gen p0 p q Hadd).
    - intros tp tp' p q Htp Htp' Hp Hq Hd Hs.
      destruct (fingerprinted_in gen w w' tp Hfp Htp) as (tp0 & H0 & H1 & H2).
      apply elem_of_list_lookup in Hp as [b Hb]. destruct (Forall2_lookup_r _ _ _ _ _ H2 Hb) as (p0 & Hp0 & Hadd).
      apply (hb_new _ _ Hhb tp0 tp' p0 q); [done|done|by eapply elem_of_list_lookup_2|done| |].
      + rewrite <- Hd. unfold tp_date. by rewrite H1.
      + by apply (added_soft gen p0 p q Hadd).
  Qed.
End hand.

Theorem c118_joined w extra' ho gen n n' tps' ho1 ho2 :
  hand_and_bank w extra' → hash_order_ok ho → hash_order_ok ho1 → hash_order_ok ho2 →
  new_ids gen (all_posts (first_source w) ++ all_posts (second_source w extra')) →
  fpgen_trns ho gen n (first_source w) = (n', tps') →
  ∃ w' m1 m, fingerprinted gen w w' ∧ first_source w' = tps' ∧ two_sources w' extra' ∧
    merge ho1 merger_new tps' = (m1, Ok []) ∧
    merge ho2 m1 (second_source w extra') = (m, Ok []) ∧
    (∀ hb, hash_order_ok hb → build hb m = Ok (stable_sort (by_key tp_date) ((joined <$> w') ++ extra'))) ∧
    (∀ ho3, hash_order_ok ho3 → merge ho3 m (second_source w extra') = (m, Ok [])).
Proof.
  intros Hhb Hho Hho1 Hho2 Hids Hgen. exists (zip tps' (w.*2)).
  pose proof (hand_two_sources w extra' Hhb ho gen n n' tps' Hho Hgen Hids) as Hts.
  destruct (two_sources_joined _ extra' Hts ho1 ho1 ho2 Hho1 Hho1 Hho2) as (m1 & m & H1 & H2 & H3 & _).
  rewrite (hand_first w ho gen n n' tps' Hho Hgen) in H1.
  rewrite (same_second w _ extra' (hand_second2 w ho gen n n' tps' Hho Hgen)) in H2.
  exists m1, m. split; [exact (hand_fingerprinted w ho gen n n' tps' Hho Hgen)|]. split; [exact (hand_first w ho gen n n' tps' Hho Hgen)|]. split; [done|]. split; [done|]. split; [done|]. split.
  - intros hb Hhb'. destruct (two_sources_joined _ extra' Hts hb ho1 ho2 Hhb' Hho1 Hho2) as (m1' & m' & H1' & H2' & H3' & _).
    rewrite (hand_first w ho gen n n' tps' Hho Hgen), H1 in H1'. injection H1' as <-.
    rewrite (same_second w _ extra' (hand_second2 w ho gen n n' tps' Hho Hgen)), H2 in H2'. by injection H2' as <-.
  - intros ho3 Hho3. apply (c06 m1 ho2 ho3); [|done|done|done]. replace m1 with (merge ho1 merger_new tps').1 by (by rewrite H1).
    constructor; [constructor|done].
Qed.
(** What becomes of one payment that both know. *)
Theorem c118_both gen w w' extra' a tp tp' qs :
  fingerprinted gen w w' → two_sources w' extra' → w !! a = Some (tp, Some (tp', qs)) →
  ∃ out, joined <$> w' !! a = Some out ∧ tp_trn out = tp_trn tp ∧ length (tp_posts out) = length (tp_posts tp) ∧
    ∀ b p q, tp_posts tp !! b = Some p → qs !! b = Some q → ∃ r, tp_posts out !! b = Some r ∧
      (∀ f, has_fp p f ∨ has_fp q f → has_fp r f) ∧
      (∀ f, has_fp r f → has_fp p f ∨ has_fp q f ∨ (∀ f, ¬ has_fp p f) ∧ ∃ i, f = s2l "fp-uuidb64-" ++ gen i) ∧
      (unknown_account r ↔ unknown_account p ∧ unknown_account q) ∧
      (¬ unknown_account p → p_account (pi_raw r) = p_account (pi_raw p)) ∧
      (unknown_account p → ¬ unknown_account q → p_account (pi_raw r) = p_account (pi_raw q)).
Proof.
  intros Hfp Hts Ha. assert (∃ tp1, w' !! a = Some (tp1, Some (tp', qs))) as [tp1 Ha'].
  { destruct Hfp as [_ H2]. assert (w.*2 !! a = Some (Some (tp', qs))) as E by (by rewrite list_lookup_fmap, Ha).
    rewrite <- H2, list_lookup_fmap in E. destruct (w' !! a) as [[tp1 o]|]; [|done]. injection E as ->. eauto. }
  destruct (fingerprinted_at gen w w' a tp1 _ Hfp Ha') as (tp0 & H0 & H1 & H2). rewrite Ha in H0. injection H0 as <-.
  rewrite Ha'. exists (joined (tp1, Some (tp', qs))). split; [done|].
  destruct (joined_posts w' extra' tp1 tp' qs Hts) as (J1 & J2 & J3 & J4); [by eapply elem_of_list_lookup_2|].
  split; [by rewrite J1|]. split; [rewrite J3; symmetry; by eapply Forall2_length|].
  intros b p q Hp Hq. destruct (Forall2_lookup_l _ _ _ _ _ H2 Hp) as (p1 & Hp1 & Hadd).
  destruct (J4 b p1 q Hp1 Hq) as (r & Hr & F & U & K1 & K2). exists r.
  rewrite (added_unknown gen p p1 Hadd) in U, K1, K2. rewrite (added_raw gen p p1 Hadd) in K1.
  split; [done|]. split_and!; [| |done|done|done].
  - intros f [Hf|Hf]; apply F; [left|by right]. destruct Hadd as [[_ ->]|(Hno & _)]; [done|]. by apply Hno in Hf.
  - intros f [Hf|Hf]%F; [|by right; left]. destruct Hadd as [[_ ->]|(Hno & _ & _ & _ & i & Ht)]; [by left|].
    destruct Hf as [Hft Hf]. apply Ht in Hf as [Hf| ->]; [by left|]. right; right. eauto.
Qed.

(** * The commands *)
(** The text of an id can be written in a comment. *)
Lemma added_representable gen p p' : (∀ i c, c ∈ gen i → c ≠ colon ∧ c ≠ CommentClaims.space ∧ c ≠ newline) →
  fingerprint_added gen p p' → representable (pi_comment p) → representable (pi_comment p').
Proof.
  intros Hid [[_ ->]|(_ & _ & Hl & Hv & i & Ht)] H; [done|]. split.
  - intros t Hin. apply Ht in Hin as [Hin| ->]; [by apply (rp_tags _ H)|].
    assert (∀ c, c ∈ s2l "fp-uuidb64-" ++ gen i → c ≠ colon ∧ c ≠ CommentClaims.space ∧ c ≠ newline) as G.
    { intros c [Hc|Hc]%elem_of_app; [|by eapply Hid].
      assert (Forall (λ c, c ≠ colon ∧ c ≠ CommentClaims.space ∧ c ≠ newline) (s2l "fp-uuidb64-")) as F by by_compute.
      rewrite Forall_forall in F. by apply F. }
    split; [split|].
    + cbn [s2l app]. intros [=].
    + intros c Hc. split; by apply G in Hc as (? & ? & ?).
    + intros Hc. by apply G in Hc as (_ & _ & ?).
  - rewrite Hl. exact (rp_lines _ H).
  - rewrite Hl. intros j l k Hj Hor. apply (rp_not_value _ H j l k Hj). destruct Hor as [?|Hor]; [by left|].
    exfalso. assert (has_tag p' (s2l "fp-uuidb64-" ++ gen i)) as Hin by (apply Ht; by right). unfold has_tag in Hin. rewrite Hor in Hin.
    by apply elem_of_empty in Hin.
  - rewrite Hv. exact (rp_keys _ H).
  - rewrite Hv. exact (rp_values _ H).
Qed.
Lemma added_clean gen tps tps' : fingerprints_added gen tps tps' → Forall clean_tp tps → Forall clean_tp tps'.
Proof.
  induction 1 as [|tp tp' l l' [H1 H2] H IH]; intros Hc; [constructor|]. apply Forall_cons in Hc as [Hc Hcs]. constructor; [|by apply IH].
  destruct Hc as [C1 C3]. split; [by rewrite H1|].
  clear -C3 H2. induction H2 as [|p p' l l' Hp H2 IH]; [constructor|]. apply Forall_cons in C3 as [C C3]. constructor; [|by apply IH].
  unfold clean_post in *. by rewrite (added_raw gen p p' Hp).
Qed.

Theorem c118_command E ho ho2 gen n hand bank um output w extra' wd es text l :
  hash_order_ok ho → hash_order_ok ho2 → hand_and_bank w extra' →
  new_ids gen (all_posts (first_source w) ++ all_posts (second_source w extra')) →
  (∀ i c, c ∈ gen i → c ≠ colon ∧ c ≠ CommentClaims.space ∧ c ≠ newline) →
  w_files wd !! hand = Some text → e_parse E text = Some l → first_source w = transaction_postings_of <$> ledger_trns l →
  (∀ tp, tp ∈ first_source w → comments_writable tp ∧ source_tag tp = None) →
  journals E wd [Path bank] [second_source w extra'] wd → bank ≠ hand →
  (∀ tps', fingerprints_added gen (first_source w) tps' → w_files (steps wd es) !! hand = Some (e_print E (into_ledger ho tps')) →
     e_parse E (e_print E (into_ledger ho tps')) = Some (into_ledger ho tps')) →
  fpgen_cmd E ho gen n [Path hand] wd = (es, Ok tt) →
  f_read E (Path hand) = false → (∀ f, um = Some f → writable E f) → writable E output →
  ∃ w' es2, let w1 := steps wd es in
    fingerprinted gen w w' ∧ two_sources w' extra' ∧
    merge_cmd E ho2 [Path hand; Path bank] um output w1 = (es2, Ok tt) ∧
    holds w1 (steps w1 es2) output (e_print E (into_ledger ho2 (stable_sort (by_key tp_date) ((joined <$> w') ++ extra')))) ∧
    ∀ p, Path p ≠ output → same_file w1 (steps w1 es2) p.
Proof.
  intros Hho Hho2 Hhb Hids Hid Hf Hp Hfs Hcs Hj Hne Hpp Hrun Hfr Hum Hout.
  destruct (fpgen_cmd_files E ho gen [hand] (NoDup_singleton hand) n wd es Hrun) as (ls & ls' & n' & F1 & F2 & F3 & F4 & F5).
  inversion F1 as [|? tps ? lsr Hx Hy]; subst. inversion Hy; subst. clear Hy.
  inversion F2 as [|? tps' ? lsr' Hx' Hy']; subst. inversion Hy'; subst. clear Hy'.
  destruct Hx as (text' & l' & G1 & G2 & G3 & ->). assert (text' = text) as -> by congruence. assert (l' = l) as -> by congruence.
  rewrite <- Hfs in F4. cbn [mjoin list_join] in F4. rewrite !app_nil_r in F4.
  destruct (c118_joined w extra' ho gen n n' tps' ho2 ho2 Hhb Hho Hho2 Hho2 Hids F4) as (w' & m1 & m & A1 & A2 & A3 & A4 & A5 & A6 & _).
  assert (Hadd : fingerprints_added gen (first_source w) tps') by (rewrite <- A2; apply A1).
  assert (Hclean : Forall clean_tp tps').
  { eapply added_clean; [exact Hadd|]. rewrite Hfs. apply Forall_fmap, Forall_forall. intros t _. apply clean_of. }
  assert (Hcw : ∀ tp, tp ∈ tps' → comments_writable tp ∧ source_tag tp = None).
  { rewrite <- A2. intros tp Htp. destruct (fingerprinted_in gen w w' tp A1 Htp) as (tp0 & H0 & H1 & H2).
    destruct (Hcs tp0 H0) as [[C1 C2] C3]. unfold source_tag, comments_writable. rewrite H1. split; [split; [done|]|done].
    intros p (b & Hb)%elem_of_list_lookup. destruct (Forall2_lookup_r _ _ _ _ _ H2 Hb) as (p0 & Hp0 & Ha).
    eapply added_representable; [done|exact Ha|]. apply C2. by eapply elem_of_list_lookup_2. }
  pose proof (from_into_ledger ho tps' Hho Hclean (λ tp H, proj1 (Hcw tp H))) as HL.
  assert (Hj2 : journals E (steps wd es) [Path hand; Path bank] [tps'; second_source w extra'] (steps wd es)).
  { rewrite <- HL at 1. eapply journals_cons.
    - eapply reads_path; [done|exact Hx'|by apply Hpp].
    - apply ledger_supported.
    - intros t Ht. apply Hcw. rewrite <- HL. by apply elem_of_list_fmap_1.
    - apply (journals_paths E wd _ [bank] _ wd); [exact Hj|]. intros q ->%elem_of_list_singleton. apply F5.
      by rewrite elem_of_list_singleton. }
  destruct (c99_journals E ho2 _ um output (steps wd es) _ _ [] m Hho2 Hj2) as (es2 & un' & out' & R1 & R2 & _ & R3 & _ & R4).
  { change (@nil transaction_postings) with (@nil transaction_postings ++ ([] ++ [])). econstructor; [exact A4|]. econstructor; [exact A5|]. constructor. }
  { by left. } { done. } { done. }
  rewrite A6 in R2 by done. injection R2 as <-.
  exists w', es2. cbn zeta. split; [done|]. split; [done|]. split; [done|]. split; [apply R3; by right; left|].
  intros p Hpo. by apply R4.
Qed.

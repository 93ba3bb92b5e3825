(** Proofs for C106: merging a written journal together with everything it was
    merged from. *)
From Verif Require Import Base Types CommentModel MergeModel CmdModel SpecBase BaseProofs MergeSpec MergeClaims
  MergeProofs MergeLemmas MergeReplay CmdClaims CmdProofs CmdMerge CmdMerge2 CmdIdem HeaderClaims HeaderLaws CmdPlain WorkCmd.
From Coq Require Import Lia.
Local Open Scope nat_scope.

Lemma merges_dec ho sets : ∀ m, (∃ un m', merges ho m sets un m') ∨ (∀ un m', ¬ merges ho m sets un m').
Proof.
  induction sets as [|s sets IH]; intros m; [left; exists [], m; constructor|].
  destruct (merge ho m s) as [m1 [u|e|]] eqn:Hm.
  - destruct (IH m1) as [(un & m' & H)|H].
    + left. exists (u ++ un), m'. by econstructor.
    + right. intros un m' H'. inversion H' as [|? ? mx ux ? unx ? Hx Hy]; subst. rewrite Hm in Hx. injection Hx as <- <-. by apply H in Hy.
  - right. intros un m' H'. inversion H' as [|? ? mx ux ? unx ? Hx Hy]; subst. congruence.
  - right. intros un m' H'. inversion H' as [|? ? mx ux ? unx ? Hx Hy]; subst. congruence.
Qed.
Lemma merges_run ho m sets un m' : hash_order_ok ho → merges ho m sets un m' → un = [] → clean_run m ((ho,.) <$> sets) m'.
Proof.
  intros Hho. induction 1 as [m|m s m1 u sets un m2 Hm H IH]; intros Hun; [constructor|].
  apply app_eq_nil in Hun as [-> ->]. rewrite fmap_cons. econstructor; [done|exact Hm|by apply IH].
Qed.
Lemma run_merges ho sets : ∀ m m', clean_run m ((ho,.) <$> sets) m' → merges ho m sets [] m'.
Proof.
  induction sets as [|s sets IH]; intros m m' H.
  - inversion H; subst. constructor.
  - rewrite fmap_cons in H. inversion H as [|? ? ? m1 ? ? Hh Hm Hr]; subst.
    change (@nil transaction_postings) with (@nil transaction_postings ++ []). econstructor; [exact Hm|by apply IH].
Qed.
Lemma zip_const {A B} (a : A) (l : list B) : zip (replicate (length l) a) l = (a,.) <$> l.
Proof. induction l as [|b l IH]; [done|]. simpl. by f_equal. Qed.

Lemma merges_alike (P : transaction_internal → Prop) ho m sets un m' :
  alike (λ t t', t' = t ∧ P t) m m → merges ho m sets un m' → Forall (Forall (λ tp, P (tp_trn tp))) sets →
  alike (λ t t', t' = t ∧ P t) m' m'.
Proof.
  intros Ha H. revert Ha. induction H as [m|m s m1 u sets un m2 Hm H IH]; intros Ha Hs; [done|].
  apply Forall_cons in Hs as [Hs1 Hs2]. apply IH; [|done].
  replace m1 with (merge ho m s).1 by (by rewrite Hm). apply alike_merge; [done|].
  clear -Hs1. induction Hs1 as [|tp l Htp H IH]; constructor; [|done]. split; [split|]; done.
Qed.
(** Headers come from the inputs. *)
Lemma merges_headers (P : transaction_internal → Prop) ho sets un m out :
  merges ho merger_new sets un m → build ho m = Ok out → Forall (Forall (λ tp, P (tp_trn tp))) sets →
  Forall (λ tp, P (tp_trn tp)) out.
Proof.
  intros Hm Hb Hs.
  assert (Hd : ∀ t t', t' = t ∧ P t → t_date (ti_raw t') = t_date (ti_raw t)) by (by intros t t' [-> _]).
  destruct (c98 (λ t t', t' = t ∧ P t) Hd m m ho [] []) as [_ H];
    [by eapply merges_alike; [constructor|done|done]|constructor|].
  rewrite Hb in H. simpl in H. clear -H.
  assert (∀ l k, Forall2 (trn_alike (λ t t', t' = t ∧ P t)) l k → Forall (λ tp, P (tp_trn tp)) l) as G; [|by eapply G].
  induction 1 as [|x y l k [[_ Hx] _] ? IH]; by constructor.
Qed.

Lemma journals_sets E w fs tpss w' : journals E w fs tpss w' →
  Forall (Forall clean_tp) tpss ∧ Forall (Forall (λ tp, source_tag tp = None)) tpss.
Proof.
  induction 1 as [|w f l w1 fs tpss w2 Hr Hs Ht H [IH1 IH2]]; [split; constructor|].
  split; (constructor; [|done]); apply Forall_fmap, Forall_forall.
  - intros t _. apply clean_of.
  - intros t Hin. by apply Ht.
Qed.
(** Files other than the one written read the same. *)
Lemma journals_paths E w w1 paths tpss w' :
  journals E w (Path <$> paths) tpss w' → (∀ p, p ∈ paths → same_file w w1 p) → journals E w1 (Path <$> paths) tpss w1.
Proof.
  remember (Path <$> paths) as fs eqn:Hfs. intros H. revert paths Hfs.
  induction H as [w|w f l wa fs tpss wb Hr Hs Ht H IH]; intros paths Hfs Hsame.
  - constructor.
  - destruct paths as [|p paths]; [done|]. rewrite fmap_cons in Hfs. injection Hfs as -> ->.
    inversion Hr as [? ? text ? Hf Hfile Hp|]; subst.
    eapply journals_cons; [|done|done|].
    + eapply reads_path; [done| |done]. rewrite <- Hfile. apply Hsame. by left.
    + eapply IH; [reflexivity|]. intros q Hq. apply Hsame. by right.
Qed.

Lemma c106 E ho ho2 paths o o2 um2 w tpss w0 es es2 r2 :
  hash_order_ok ho → hash_order_ok ho2 →
  journals E w (Path <$> paths) tpss w0 → o ∉ paths →
  merge_cmd E ho (Path <$> paths) None (Path o) w = (es, Ok tt) →
  (∀ m out, merges ho merger_new tpss [] m → build ho m = Ok out →
     e_parse E (e_print E (into_ledger ho out)) = Some (into_ledger ho out) ∧ ∀ tp, tp ∈ out → comments_writable tp) →
  f_read E (Path o) = false → writable E (Path o) → writable E o2 → (∀ f, um2 = Some f → writable E f) →
  merge_cmd E ho2 (Path o :: (Path <$> paths)) um2 o2 (steps w es) = (es2, r2) →
  r2 = Ok tt ∧ ∃ text, w_files (steps w es) !! o = Some text ∧ holds (steps w es) (steps (steps w es) es2) o2 text.
Proof.
  intros Hho Hho2 Hj Ho Hrun Hrt Hread Hwo Hwo2 Hum2 Hrun2.
  assert (∃ m, merges ho merger_new tpss [] m) as [m Hm].
  { destruct (merges_dec ho tpss merger_new) as [(un & m & Hm)|Hn].
    - destruct (decide (un = [])) as [->|Hun]; [by eauto|].
      destruct (c99_journals_failed E ho _ None (Path o) w tpss w0 es (Ok tt) Hho Hj) as [[e ?] _]; [|done|done].
      intros un' m' [Hm' [->|[? ?]]]; [|done]. destruct (merges_fun _ _ _ _ _ _ _ Hm Hm') as [-> _]. done.
    - destruct (c99_journals_failed E ho _ None (Path o) w tpss w0 es (Ok tt) Hho Hj) as [[e ?] _]; [|done|done].
      intros un' m' [Hm' _]. by apply Hn in Hm'. }
  destruct (c99_journals E ho _ None (Path o) w tpss w0 [] m Hho Hj Hm) as (es' & un' & out & Hrun' & Hb & _ & Hw & _ & Hsame);
    [by left|done|done|].
  rewrite Hrun in Hrun'. injection Hrun' as <-. simpl in Hw, Hsame.
  specialize (Hw ltac:(by left)). set (w1 := steps w es) in *.
  destruct (Hrt m out Hm Hb) as [Hparse Hcw]. destruct (journals_sets _ _ _ _ _ Hj) as [Hcl Hsrc].
  assert (Hr : reachable m) by exact (merges_reachable _ _ _ _ _ Hho reach_new Hm).
  assert (Hclean : Forall clean_tp out).
  { destruct (merges_clean ho merger_new tpss [] m journal_new Hho reach_new rep_new) as (j & Hjr & Hc); [split; constructor|done|done|].
    exact (clean_built ho m j out Hho Hr Hjr Hc Hb). }
  assert (Hsrc' : Forall (λ tp, source_tag tp = None) out).
  { exact (merges_headers (λ t, value_tags (ti_comment t) !! s2l "source-file" = None) ho tpss [] m out Hm Hb Hsrc). }
  pose proof (from_into_ledger ho out Hho Hclean Hcw) as HL. set (L := into_ledger ho out) in *.
  assert (Hj2 : journals E w1 (Path o :: (Path <$> paths)) (out :: tpss) w1).
  { rewrite <- HL. eapply journals_cons.
    - eapply reads_path; [done|exact Hw|exact Hparse].
    - apply ledger_supported.
    - intros t Ht. rewrite Forall_forall in Hsrc'. apply Hsrc'. rewrite <- HL. by apply elem_of_list_fmap_1.
    - eapply journals_paths; [exact Hj|]. intros p Hp. apply Hsame; [|done]. intros [= ->]. done. }
  pose proof (merges_run _ _ _ _ _ Hho Hm eq_refl) as Hcr.
  destruct (replay_all _ m ho out Hcr Hho Hb (replicate (length (out :: tpss)) ho2)) as (m2 & Hcr2 & Hb2).
  { by rewrite replicate_length, fmap_length. }
  { apply Forall_replicate. done. }
  assert (Hsnd : ((ho,.) <$> tpss).*2 = tpss).
  { clear. induction tpss as [|s l IH]; [done|]. rewrite !fmap_cons. by f_equal. }
  rewrite Hsnd, zip_const in Hcr2. apply run_merges in Hcr2.
  destruct (c99_journals E ho2 _ um2 o2 w1 _ w1 [] m2 Hho2 Hj2 Hcr2) as (es' & un2 & out2 & Hrun' & Hb' & _ & Hw2 & _ & _);
    [by left|done|done|].
  rewrite Hrun2 in Hrun'. injection Hrun' as <- ->. rewrite Hb2 in Hb' by done. injection Hb' as <-.
  split; [done|]. exists (e_print E L). split; [exact Hw|].
  rewrite (into_ledger_order ho2 ho) in Hw2 by done. apply Hw2. by right; left.
Qed.

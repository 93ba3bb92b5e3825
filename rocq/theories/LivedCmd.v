(** Journals with any history: the merge command, rules. *)
From Verif Require Import MergeClaims.
From stdpp Require Import list gmap.
From Verif Require Import Base Types SpecBase BaseProofs CommentModel MergeModel CmdModel CmdClaims HeaderClaims MergeSpec CmdProofs CmdMerge CmdMerge2
  CmdIdem HeaderLaws CmdPlain RulesModel RulesClaims RulesProofs RulesLaws EditClaims WindowClaims MergeEdit RulesEdit KeptClaims Kept
  HistoryClaims Accounted LivedClaims Lived.
From Coq Require Import Lia.
Local Open Scope nat_scope.

Lemma command_merged E ho inputs um output w tpss w' es :
  hash_order_ok ho → journals E w inputs tpss w' → merge_cmd E ho inputs um output w = (es, Ok tt) →
  ∃ un m un' out, merges ho merger_new tpss un m ∧ (un = [] ∨ is_Some um) ∧ build ho m = Ok out ∧ Forall2 unsourced un' un ∧
    let w1 := steps w es in
    (um ≠ Some Stdio ∨ un = [] ∨ output ≠ Stdio → holds w w1 output (e_print E (into_ledger ho out))) ∧
    (∀ f, um = Some f → un ≠ [] → f ≠ output → holds w w1 f (e_print E (into_ledger ho un'))) ∧
    (∀ p, Path p ≠ output → (um = Some (Path p) → un = []) → same_file w w1 p).
Proof.
  intros Hho Hj Hc. destruct (journals_sets _ _ _ _ _ Hj) as (sets & Ha & Hp).
  destruct (c25_written E ho inputs um output w es Hho Hc) as (un1 & m1 & out & out' & Hmc & Hb & Hoo & Hw).
  destruct Hmc as [(sets' & w1 & Ha' & Hm1) Hpl]. destruct (all_inputs_fun _ _ _ _ _ _ _ Ha Ha') as [<- <-].
  destruct (merges_plain ho merger_new merger_new sets _ (sim_new _) Hp) as [H1 _].
  destruct (H1 _ _ Hm1) as (un & m & Hm & Hu & Hs). apply merges_filter in Hm.
  assert (un1 = [] ↔ un = []) as Hnil by (split; intros ->; by inversion Hu).
  assert (Hba := build_alike _ ho m1 m Hs). rewrite Hb in Hba. destruct (build ho m) as [out2| |] eqn:Eb; try done.
  cbn in Hba. apply source_alike_all in Hba. assert (out2 = out') as -> by (by eapply unsourced_all_fun).
  exists un, m, un1, out'. cbv zeta in *. destruct Hw as (W1 & W2 & W3). split_and!; try done.
  - destruct Hpl as [?|?]; [left; by apply Hnil|by right].
  - intros H. apply W1. by rewrite Hnil.
  - intros f Hf Hne. apply W2; [done|]. by rewrite Hnil.
  - intros p Hp' Hpu. apply W3; [done|]. by rewrite Hnil.
Qed.
(** A run of the command, with the journal first, is a step of the history. *)
Lemma lived_command E ho f gs um output wd wd' sets J Ss es : hash_order_ok ho → lived sets J →
  journals E wd (f :: gs) (J :: Ss) wd' → merge_cmd E ho (f :: gs) um output wd = (es, Ok tt) →
  ∃ un out, (um = None → un = []) ∧
    (∀ Ts, Forall2 (λ S T, taken S un T) Ss Ts → lived (sets ++ Ts) out) ∧
    (um ≠ Some Stdio ∨ un = [] ∨ output ≠ Stdio → holds wd (steps wd es) output (e_print E (into_ledger ho out))) ∧
    (∀ u, um = Some u → un ≠ [] → u ≠ output → holds wd (steps wd es) u (e_print E (into_ledger ho un))).
Proof.
  intros Hho Hl Hj Hc.
  destruct (command_merged E ho (f :: gs) um output wd (J :: Ss) wd' es Hho Hj Hc) as (un & m & un' & out & Hm & Hum & Hb & Hu & W1 & W2 & _).
  assert (un' = [] ↔ un = []) as Hnil by (split; intros ->; by inversion Hu).
  exists un', out. split_and!.
  - intros ->. apply Hnil. destruct Hum as [?|[? ?]]; done.
  - intros Ts HT. destruct (merges_runs ho merger_new (J :: Ss) un m Hho Hm) as (runs & Hrun & Hsets & ->).
    destruct runs as [|[[ho' J'] un0] runs]; [done|]. rewrite fmap_cons in Hsets. injection Hsets as EJ ES.
    unfold run_set in EJ. cbn [fst snd] in EJ. subst J'.
    eapply lived_merge; [done|exact Hho|exact Hrun|exact Hb|].
    assert (∀ rn, rn ∈ runs → ∀ u, u ∈ run_unmerged rn → ∃ u', u' ∈ un' ∧ tp_posts u' = tp_posts u) as Hin.
    { intros rn Hrn u Hin. assert (u ∈ mjoin (run_unmerged <$> (ho', J, un0) :: runs)) as [i Hi]%elem_of_list_lookup.
      { apply elem_of_list_join. exists (run_unmerged rn). split; [done|]. apply elem_of_list_fmap. exists rn. split; [done|by right]. }
      destruct (Forall2_lookup_r _ _ _ _ _ Hu Hi) as (u' & Hi' & E1 & _). exists u'. split; [by eapply elem_of_list_lookup_2|done]. }
    clear -ES HT Hin. revert Ss Ts ES HT. induction runs as [|rn runs IH]; intros Ss Ts ES HT; rewrite ?fmap_cons in ES; subst Ss.
    { inversion HT; subst. constructor. }
    inversion HT as [|? T ? Ts' [H1 H2] HT']; subst. constructor.
    + split; [done|]. intros tp Htp. destruct (H2 tp Htp) as [Hne Hno]. split; [done|]. intros u p q Hu' Hp Hq.
      destruct (Hin rn (elem_of_list_here _ _) u Hu') as (u' & Hu1 & E1). apply (Hno u' p q Hu1 Hp). by rewrite E1.
    + eapply IH; [|done..]. intros rn' Hrn'. apply Hin. by right.
  - intros H. apply W1. by rewrite <- Hnil.
  - intros u Hu' Hne. apply W2; [done|]. by rewrite <- Hnil.
Qed.
(** Old statements again. *)
Lemma clean_merges ho m sets m' : clean_run m ((λ s, (ho, s)) <$> sets) m' → merges ho m sets [] m'.
Proof.
  revert m. induction sets as [|s sets IH]; intros m H; inversion H; subst; [constructor|].
  change (@nil transaction_postings) with (@nil transaction_postings ++ []). econstructor; [done|by apply IH].
Qed.
Lemma lived_again_command E ho f gs um output wd wd' sets J Ss : hash_order_ok ho → lived sets J → (∀ S, S ∈ Ss → ∃ T, T ∈ sets ∧ S ⊆+ T) →
  journals E wd (f :: gs) (J :: Ss) wd' → (∀ u, um = Some u → writable E u) → writable E output →
  ∃ es J', merge_cmd E ho (f :: gs) um output wd = (es, Ok tt) ∧ Forall2 trn_refines J J' ∧
    holds wd (steps wd es) output (e_print E (into_ledger ho (stable_sort (by_key tp_date) J'))) ∧
    ∀ p, Path p ≠ output → same_file wd (steps wd es) p.
Proof.
  intros Hho Hl HSs Hj Hum Hout.
  destruct (lived_again sets J Ss ho (replicate (length Ss) ho) Hl HSs Hho) as (m & J' & Hrun & HF & Hb).
  { by apply Forall_replicate. } { by rewrite replicate_length. }
  destruct (c99_journals E ho (f :: gs) um output wd (J :: Ss) wd' [] m) as (es & un' & out & Hc & Hb' & Hu & H1 & _ & H3); try done.
  - apply clean_merges. rewrite fmap_cons. replace ((λ s, (ho, s)) <$> Ss) with (zip (replicate (length Ss) ho) Ss); [done|].
    clear. induction Ss as [|s Ss IH]; [done|]. rewrite fmap_cons, <- IH. done.
  - by left.
  - rewrite (Hb ho Hho) in Hb'. injection Hb' as <-. exists es, J'. split_and!; [done..| |].
    + apply H1. right. by left.
    + intros p Hp. by apply H3.
Qed.
Lemma lived_rules sets J X T ho n J' : lived sets J → hash_order_ok ho →
  leaves_fingerprints T → update_transactions X ho T n J = Some (Ok J') → lived sets J'.
Proof.
  intros Hl Hho HT Hu. pose proof (c53_changes X ho T n J J' Hho Hu) as HF.
  eapply lived_edit; [done|by eapply rules_edited|]. eapply rules_journal_ok; [done..|]. exact (proj1 (lived_inv sets J Hl)).
Qed.

(** Where everything goes that the merge command reads, also from files with source tags (C121). *)
From Verif Require Import Base Types CommentModel MergeModel CmdModel SpecBase BaseProofs MergeSpec CmdClaims MergeClaims HeaderClaims
  MergeProofs MergeLemmas CmdProofs CmdMerge CmdMerge2 CmdIdem HeaderLaws CmdPlain HistoryClaims History HistoryStep PropsMergeProofs AccountedClaims Accounted.
From Coq Require Import Lia.
Local Open Scope nat_scope.

Lemma once_unsourced out out' : Forall2 unsourced out out' → all_posts out' = all_posts out.
Proof.
  unfold all_posts. induction 1 as [|x y l k Hxy H IH]; [done|]. rewrite !bind_cons, IH. f_equal. by destruct Hxy as [-> _].
Qed.
Lemma c121_sources E ho inputs um output w es :
  hash_order_ok ho → merge_cmd E ho inputs um output w = (es, Ok tt) →
  ∃ sets w' back loc merged out un,
    all_inputs E w inputs sets w' ∧ accounts_for sets back loc merged ∧ Forall2 unsourced merged out ∧
    Forall2 returned_unmerged (all_handed back sets) un ∧ (un ≠ [] → is_Some um) ∧
    (∀ s tp p f, s ∈ sets → tp ∈ s → p ∈ tp_posts tp → has_fp p f →
       once f out ∨ ∃ tp' q, tp' ∈ un ∧ q ∈ tp_posts tp' ∧ has_tag q f) ∧
    let w1 := steps w es in
    (um ≠ Some Stdio ∨ un = [] ∨ output ≠ Stdio → holds w w1 output (e_print E (into_ledger ho out))) ∧
    (∀ f, um = Some f → un ≠ [] → f ≠ output → holds w w1 f (e_print E (into_ledger ho un))) ∧
    (∀ p, Path p ≠ output → (um = Some (Path p) → un = []) → same_file w w1 p).
Proof.
  intros Hho Hes. destruct (c25_written E ho inputs um output w es Hho Hes) as (un & m & out & out' & Hc & Hb & Hoo & Hw).
  destruct Hc as [(sets & w1 & Ha & Hm) Hpl]. destruct (accounted ho sets un m out Hho Hm Hb) as (back & loc & H2 & H3 & H4).
  exists sets, w1, back, loc, out, out', un. split_and!; try done.
  - intros Hne. by destruct Hpl as [->|?].
  - intros s tp p f H5 H6 H7 H8. unfold once. rewrite (once_unsourced _ _ Hoo). by eapply H4.
Qed.

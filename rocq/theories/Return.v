(** Payments deleted from a journal come back. *)
From Verif Require Import MergeClaims.
From stdpp Require Import list gmap.
From Verif Require Import Base Types SpecBase BaseProofs CommentModel MergeModel MergeSpec MergeProofs MergeLemmas MergeLaws2 CmdModel CmdClaims HeaderClaims CmdPlain
  EditClaims WindowClaims MergeEdit MergeDays KeptClaims Kept HistoryClaims LivedClaims Lived ReturnClaims.
From Coq Require Import Lia.
Local Open Scope nat_scope.

Definition goneb (J : list transaction_postings) (tp : transaction_postings) : bool :=
  forallb (λ p, forallb (λ q, forallb (λ f, negb (bool_decide (f ∈ fps_of p))) (elements (fps_of q))) (all_posts J)) (tp_posts tp).
Lemma goneb_spec J tp : goneb J tp = true ↔ gone J tp.
Proof.
  unfold goneb, gone. rewrite forallb_forall. setoid_rewrite forallb_forall. setoid_rewrite forallb_forall. setoid_rewrite <- elem_of_list_In. split.
  - intros H p q Hp Hq (f & Hf & Hf'). apply elem_of_fps in Hf, Hf'. apply elem_of_elements in Hf. specialize (H p Hp q Hq f Hf).
    apply negb_true_iff, bool_decide_eq_false in H. done.
  - intros H p Hp q Hq f Hf. apply negb_true_iff, bool_decide_eq_false. intros Hf'. apply (H p q Hp Hq). exists f.
    apply elem_of_elements in Hf. split; by apply elem_of_fps.
Qed.
Lemma forallb_not {A} (f : A → bool) l : forallb f l = false → ∃ x, x ∈ l ∧ f x = false.
Proof.
  induction l as [|x l IH]; [done|]. simpl. destruct (f x) eqn:E; simpl.
  - intros (y & ? & ?)%IH. exists y. split; [by right|done].
  - intros _. exists x. split; [left|done].
Qed.
Lemma not_gone J tp : goneb J tp = false → ∃ p q, p ∈ tp_posts tp ∧ q ∈ all_posts J ∧ share_fp q p.
Proof.
  intros (p & Hp & (q & Hq & (f & Hf & Hb)%forallb_not)%forallb_not)%forallb_not. exists p, q. split_and!; [done..|].
  apply negb_false_iff, bool_decide_eq_true in Hb. apply elem_of_elements in Hf. exists f. split; by apply elem_of_fps.
Qed.
(** Deleting whole transactions leaves the others where they are. *)
Lemma edited_rest S J1 Z : journal_ok (J1 ++ Z) → edited S (J1 ++ Z) → (∀ tp, tp ∈ S → goneb J1 tp = false) → edited S J1.
Proof.
  intros HJ (f & F1 & F2 & F3) Hg. exists f. split_and!; [|done..].
  intros a b tp p Ha Hb. destruct (F1 a b tp p Ha Hb) as (t & q & Ht & Hq & Hfp). exists t, q. split_and!; [|done..].
  destruct (not_gone J1 tp) as (p1 & q1 & Hp1 & Hq1 & g & G1 & G2); [apply Hg; by eapply elem_of_list_lookup_2|].
  apply elem_of_list_lookup in Hp1 as [b1 Hb1]. destruct (F1 a b1 tp p1 Ha Hb1) as (t1 & r1 & Ht1 & Hr1 & Hfp1).
  apply elem_of_list_bind in Hq1 as (t2 & Hq1 & [c Hc]%elem_of_list_lookup). apply elem_of_list_lookup in Hq1 as [d Hd].
  destruct (same_place (J1 ++ Z) c d (f a b1).1 (f a b1).2 t2 t1 q1 r1) as [E _]; try done.
  { apply HJ. } { by apply lookup_app_l_Some. } { exists g. split; [done|]. by apply Hfp1. }
  rewrite (F2 a b b1 tp p p1 Ha Hb Hb1) in *. rewrite <- E in *. rewrite lookup_app_l in Ht; [done|]. by eapply lookup_lt_Some.
Qed.
Lemma window_single (S : list transaction_postings) ks : window ((λ tp, [tp]) <$> S) ks = omap (λ k, S !! k) ks.
Proof.
  unfold window. induction ks as [|k ks IH]; [done|]. cbn [mbind list_bind omap list_omap]. unfold mbind, omap in *. rewrite IH.
  rewrite list_lookup_fmap. by destruct (S !! k).
Qed.
Lemma omap_ext' {A B} (f g : A → option B) (l : list A) : (∀ x, x ∈ l → f x = g x) → omap f l = omap g l.
Proof.
  induction l as [|x l IH]; intros H; [done|]. csimpl. rewrite (H x) by left. rewrite IH by (intros; apply H; by right). done.
Qed.
Lemma numbers_filter (g : transaction_postings → bool) (S : list transaction_postings) (Q : nat → bool) :
  (∀ k tp, S !! k = Some tp → Q k = g tp) → omap (λ k, S !! k) (filter (λ k, Q k = true) (seq 0 (length S))) = filter (λ tp, g tp = true) S.
Proof.
  induction S as [|x S IH] using rev_ind; intros H; [done|]. rewrite app_length, seq_app, filter_app, omap_app, (filter_app _ S). f_equal.
  - rewrite <- IH.
    + apply omap_ext'. intros k [_ [_ Hk]%elem_of_seq]%elem_of_list_filter. by rewrite lookup_app_l.
    + intros k tp Hk. apply H. by apply lookup_app_l_Some.
  - cbn [seq Nat.add length]. assert (Q (length S) = g x) as E by (apply H; by apply list_lookup_middle). rewrite !filter_cons, !filter_nil, E.
    destruct (decide (g x = true)); [|done]. csimpl. by rewrite list_lookup_middle.
Qed.
Lemma sublist_filter {A} (P : A → Prop) `{!∀ x, Decision (P x)} (l : list A) : sublist (filter P l) l.
Proof. induction l as [|x l IH]; [constructor|]. rewrite filter_cons. destruct (decide (P x)); by constructor. Qed.
(** C137 *)
Lemma deleted_return J J1 S ho1 ho2 : journal_ok J → sublist J1 J → journal_ok S → edited S J →
  (∀ tp, tp ∈ S → gone J1 tp → not_mistaken J1 tp) → hash_order_ok ho1 → hash_order_ok ho2 →
  ∃ m1 m2 J' back, merge ho1 merger_new J1 = (m1, Ok []) ∧ merge ho2 m1 S = (m2, Ok []) ∧
    Forall2 trn_refines J1 J' ∧ sublist back S ∧ (∀ tp, tp ∈ back ↔ tp ∈ S ∧ gone J1 tp) ∧
    ∀ hb, hash_order_ok hb → build hb m2 = Ok (stable_sort (by_key tp_date) (J' ++ back)).
Proof.
  intros HJ Hsub HS Hed Hnm Hho1 Hho2.
  pose proof (sublist_submseteq _ _ Hsub) as [Z HZ]%submseteq_Permutation.
  set (parts := (λ tp, [tp]) <$> S). set (n := length S).
  set (known := λ k, match S !! k with Some tp => negb (goneb J1 tp) | None => false end).
  set (seen := filter (λ k, known k = true) (seq 0 n)).
  assert (window parts seen = filter (λ tp, negb (goneb J1 tp) = true) S) as Hseen.
  { unfold parts. rewrite window_single. apply (numbers_filter (λ tp, negb (goneb J1 tp))). intros k tp Hk. unfold known. by rewrite Hk. }
  assert (window parts (seq 0 n) = S) as Hall.
  { unfold parts. rewrite window_single. rewrite <- (filter_all (λ _ : nat, true = true) (seq 0 n)) by done.
    rewrite (numbers_filter (λ _, true)) by done. by apply filter_all. }
  assert (unseen seen (seq 0 n) = filter (λ k, negb (known k) = true) (seq 0 n)) as Hun.
  { unfold unseen, seen. assert (∀ k, k ∉ filter (λ k, known k = true) (seq 0 n) ↔ (k ∈ seq 0 n → negb (known k) = true)) as Hk.
    { intros k. rewrite elem_of_list_filter. destruct (known k); naive_solver. }
    assert (∀ l : list nat, (∀ k, k ∈ l → k ∈ seq 0 n) → filter (.∉ filter (λ k, known k = true) (seq 0 n)) l = filter (λ k, negb (known k) = true) l) as Hf; [|by apply Hf].
    induction l as [|k l IH]; intros Hl; [done|]. assert (k ∈ seq 0 n) as Hin by (apply Hl; left). rewrite !filter_cons, IH by (intros; apply Hl; by right).
    destruct (decide (k ∉ _)) as [Hd|Hd], (decide (negb (known k) = true)) as [He|He]; try done; exfalso.
    - apply He. by apply Hk.
    - apply Hd. apply Hk. done. }
  assert (window parts (unseen seen (seq 0 n)) = filter (λ tp, goneb J1 tp = true) S) as Hback.
  { rewrite Hun. unfold parts. rewrite window_single. apply (numbers_filter (λ tp, goneb J1 tp) S (λ k, negb (known k))).
    intros k tp Hk. unfold known. rewrite Hk. by rewrite negb_involutive. }
  assert (journal_ok (J1 ++ Z)) as HJZ by (by eapply journal_ok_perm).
  destruct (statement_step parts seen (seq 0 n) J1 ho1 ho2) as (m1 & m2 & J' & E1 & E2 & _ & HF & Hb); [..|done|done|].
  - unfold parts. replace (concat ((λ tp, [tp]) <$> S)) with S; [done|]. clear. induction S as [|tp S IH]; [done|]. rewrite fmap_cons. cbn [concat app]. by rewrite <- IH.
  - by eapply journal_ok_app_l.
  - apply NoDup_seq.
  - apply NoDup_filter, NoDup_seq.
  - rewrite Hseen. apply (edited_rest _ J1 Z); [done| |].
    + eapply edited_trans; [apply edited_part, sublist_submseteq, sublist_filter|]. eapply edited_trans; [exact Hed|by apply edited_perm].
    + intros tp [Hg _]%elem_of_list_filter. by apply negb_true_iff in Hg.
  - intros tp t p q Htp Ht Hp Hq. rewrite Hback in Htp. apply elem_of_list_filter in Htp as [Hg%goneb_spec Hin]. split.
    + apply (Hg p q Hp). by eapply elem_all_posts.
    + intros Hd. by eapply (Hnm tp Hin Hg t p q).
  - rewrite Hall in E2. rewrite Hback in Hb. exists m1, m2, J', (filter (λ tp, goneb J1 tp = true) S). split_and!; try done.
    + apply sublist_filter.
    + intros tp. rewrite elem_of_list_filter, goneb_spec. naive_solver.
Qed.
Lemma lived_return sets J T S J1 ho1 ho2 : lived sets J → T ∈ sets → S ⊆+ T → sublist J1 J →
  (∀ tp, tp ∈ S → gone J1 tp → not_mistaken J1 tp) → hash_order_ok ho1 → hash_order_ok ho2 →
  ∃ m1 m2 J' back, merge ho1 merger_new J1 = (m1, Ok []) ∧ merge ho2 m1 S = (m2, Ok []) ∧
    Forall2 trn_refines J1 J' ∧ sublist back S ∧ (∀ tp, tp ∈ back ↔ tp ∈ S ∧ gone J1 tp) ∧
    ∀ hb, hash_order_ok hb → build hb m2 = Ok (stable_sort (by_key tp_date) (J' ++ back)).
Proof.
  intros [HJ H]%lived_inv HT HST Hsub Hnm H1 H2. destruct (H T HT) as [HTok Hed]. apply (deleted_return J); try done.
  - by eapply journal_ok_part.
  - eapply edited_trans; [by apply edited_part|done].
Qed.
Lemma return_command E ho f g um output wd wd' sets J T S J1 : hash_order_ok ho → lived sets J → T ∈ sets → S ⊆+ T → sublist J1 J →
  (∀ tp, tp ∈ S → gone J1 tp → not_mistaken J1 tp) →
  journals E wd [f; g] [J1; S] wd' → (∀ u, um = Some u → writable E u) → writable E output →
  ∃ es J' back, merge_cmd E ho [f; g] um output wd = (es, Ok tt) ∧
    Forall2 trn_refines J1 J' ∧ sublist back S ∧ (∀ tp, tp ∈ back ↔ tp ∈ S ∧ gone J1 tp) ∧
    holds wd (steps wd es) output (e_print E (into_ledger ho (stable_sort (by_key tp_date) (J' ++ back)))) ∧
    ∀ p, Path p ≠ output → same_file wd (steps wd es) p.
Proof.
  intros Hho Hl HT HST Hsub Hnm Hj Hum Hout.
  destruct (lived_return sets J T S J1 ho ho Hl HT HST Hsub Hnm Hho Hho) as (m1 & m2 & J' & back & E1 & E2 & HF & Hbs & Hbk & Hb).
  destruct (c99_journals E ho [f; g] um output wd [J1; S] wd' [] m2) as (es & un' & out & Hc & Hb' & Hu & H1 & _ & H3); try done.
  - change (@nil transaction_postings) with (@nil transaction_postings ++ [] ++ []).
    eapply merges_cons; [done|]. eapply merges_cons; [done|]. constructor.
  - by left.
  - rewrite (Hb ho Hho) in Hb'. injection Hb' as <-. exists es, J', back. split_and!; [done..| |].
    + apply H1. right. by left.
    + intros p Hp. by apply H3.
Qed.

(** Journals with older fingerprints: the merge command (C151). *)
From stdpp Require Import gmap list.
From Verif Require Import MergeClaims.
From Verif Require Import Base Types SpecBase BaseProofs CommentModel MergeModel MergeSpec MergeClaims CmdModel CmdClaims HeaderClaims CmdPlain
  EditClaims LastAgain ResolveClaims FewerClaims Fewer Upgrade.
Local Open Scope nat_scope.

Lemma upgrade_files E J s f g w w' ho um output : hash_order_ok ho → journal_ok J → journal_ok s → known_in J s →
  journals E w [f; g] [J; s] w' → (∀ u, um = Some u → writable E u) → writable E output →
  ∃ es out, merge_cmd E ho [f; g] um output w = (es, Ok tt) ∧ Forall2 trn_refines (stable_sort (by_key tp_date) J) out ∧
    holds w (steps w es) output (e_print E (into_ledger ho out)) ∧ (∀ p, Path p ≠ output → same_file w (steps w es) p) ∧
    ∀ E2 s' f2 g2 v v' ho2 um2 output2, hash_order_ok ho2 → Forall2 says_no_more s s' → (∀ p, p ∈ all_posts s' → mergeable p) →
      journals E2 v [f2; g2] [out; s'] v' → (∀ u, um2 = Some u → writable E2 u) → writable E2 output2 →
      ∃ es2, merge_cmd E2 ho2 [f2; g2] um2 output2 v = (es2, Ok tt) ∧
        holds v (steps v es2) output2 (e_print E2 (into_ledger ho2 out)) ∧ ∀ p, Path p ≠ output2 → same_file v (steps v es2) p.
Proof.
  intros Hho HJ Hs Hkn Hj Hum Hout. destruct (known_merge J s ho ho Hho Hho HJ Hs Hkn) as (m1 & m & out & H1 & H2 & Hr & Hb & HR).
  assert (∀ ho m m1 a b, merge ho merger_new a = (m1, Ok []) → merge ho m1 b = (m, Ok []) → merges ho merger_new [a; b] [] m) as Hms.
  { intros h n n1 a b Ha Hb'. change (@nil transaction_postings) with (@nil transaction_postings ++ ([] ++ [])). econstructor; [done|]. econstructor; [done|]. constructor. }
  destruct (c99_journals E ho _ um output w _ w' [] m Hho Hj (Hms _ _ _ _ _ H1 H2) (or_introl eq_refl) Hum Hout) as (es & un' & out' & Hes & Hb' & _ & G1 & _ & G3).
  rewrite (Hb ho Hho) in Hb'. injection Hb' as <-. exists es, out. split; [done|]. split; [done|]. split; [apply G1; auto|]. split; [intros p Hp; by apply G3|].
  intros E2 s' f2 g2 v v' ho2 um2 output2 Hho2 HF Hmg Hj2 Hum2 Hout2.
  pose proof (remerge_less m1 ho ho2 s s' m Hr Hho Hho2 H2 HF Hmg) as H3.
  assert (clean_run merger_new ([(ho, J); (ho, s)] ++ [(ho2, s')]) m) as Hrun.
  { econstructor; [done|exact H1|]. econstructor; [done|exact H2|]. econstructor; [done|exact H3|]. constructor. }
  destruct (c138_built _ _ m ho out Hrun Hho (Hb ho Hho) [ho2; ho2] eq_refl) as (m2 & Hrun2 & Hb2).
  { apply Forall_cons. split; [done|]. apply Forall_cons. split; [done|]. by apply Forall_nil. }
  cbn in Hrun2. inversion Hrun2 as [|? ? ? n1 ? ? ? A1 Hrun3]; subst. inversion Hrun3 as [|? ? ? n2 ? ? ? A2 Hrun4]; subst.
  inversion Hrun4; subst.
  destruct (c99_journals E2 ho2 _ um2 output2 v _ v' [] m2 Hho2 Hj2 (Hms _ _ _ _ _ A1 A2) (or_introl eq_refl) Hum2 Hout2) as (es2 & un2 & out2 & Hes2 & Hb2' & _ & K1 & _ & K3).
  rewrite (Hb2 ho2 Hho2) in Hb2'. injection Hb2' as <-. exists es2. split; [done|]. split; [apply K1; auto|]. intros p Hp. by apply K3.
Qed.

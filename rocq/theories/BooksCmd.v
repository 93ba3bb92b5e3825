(** Books that balance, in files (C130). *)
From stdpp Require Import gmap list.
From Verif Require Import Base Types CommentModel MergeModel SpecBase BaseProofs MergeSpec MergeClaims MergeProofs MergeBuild MergeLemmas MergeLaws MergeLaws4 CmdModel CmdClaims CommentExamples MergeExamples CmdExamples
  HeaderClaims CmdPlain BooksClaims Books.
From Coq Require Import Lia QArith Lqa.
Local Open Scope nat_scope.

Lemma merges_function ho m tpss un m1 un' m2 : merges ho m tpss un m1 → merges ho m tpss un' m2 → un' = un ∧ m2 = m1.
Proof.
  intros H. revert un' m2. induction H as [|m s m1 un tpss un1 m2 Hm H IH]; intros un' m' H'; inversion H' as [|? ? ? un0 ? un1' ? Hm0 H0]; subst; [done|].
  rewrite Hm in Hm0. injection Hm0 as <- <-. by destruct (IH _ _ H0) as [-> ->].
Qed.
Lemma books_command E ho inputs um output w tpss w' m :
  hash_order_ok ho → journals E w inputs tpss w' → balanced_run merger_new (pair ho <$> tpss) m →
  (merges ho merger_new tpss [] m ∨ is_Some um) → um ≠ Some Stdio → (∀ f, um = Some f → writable E f) → writable E output →
  ∃ es out, merge_cmd E ho inputs um output w = (es, Ok tt) ∧ holds w (steps w es) output (e_print E (into_ledger ho out)) ∧
    ∀ tp, tp ∈ out → in_balance tp.
Proof.
  intros Hho Hj Hrun Hu Hum0 Hum Hout. destruct (balanced_merges _ _ _ ho Hrun) as [un Hm].
  { apply Forall_fmap, Forall_true. done. }
  rewrite <- list_fmap_compose, list_fmap_id in Hm.
  destruct (c99_journals E ho inputs um output w tpss w' un m Hho Hj Hm) as (es & un' & out & Hes & Hb & _ & G1 & _); [|done|done|].
  { destruct Hu as [Hm'|Hs]; [|by right]. left. by destruct (merges_function _ _ _ _ _ _ _ Hm' Hm) as [-> _]. }
  exists es, out. split; [done|]. split; [apply G1; auto|].
  eapply (balanced_run_built _ _ _ Hrun reach_new); [|exact Hho|exact Hb].
  intros ho0 out0 Hho0 Hb0. apply (build_inv ho0 merger_new journal_new) in Hb0; [|done|exact rep_new]. subst out0. by intros tp Htp%elem_of_nil.
Qed.

(** A journal with two payments; a set with one of them and a new one. *)
Definition bk_pay (d : date) (t : str) (q : Z) (a : str) (f g : str) (ts : list str) : transaction_postings :=
  ex_tp d t [ex_post bank (- q) [f]; ex_post a q (g :: ts)].
Definition bk_s0 := [bk_pay day1 (s2l "shop") 500 unknown (s2l "fp-a1") (s2l "fp-a2") [s2l "unknown-account"]; bk_pay day2 (s2l "cafe") 300 food (s2l "fp-b1") (s2l "fp-b2") []].
Definition bk_s1 := [bk_pay day1 (s2l "SHOP") 500 food (s2l "fp-a1") (s2l "fp-z2") []; bk_pay day2 (s2l "bus") 120 (s2l "expenses:bus") (s2l "fp-c1") (s2l "fp-c2") []].
Lemma bk_balance d t q a f g ts : in_balance (bk_pay d t q a f g ts).
Proof.
  intros c. unfold bk_pay, posts_value, post_value, ex_tp, ex_post. cbn -[ex_amount dec_value decide].
  assert (a_commodity (pa_amount (ex_amount (- q))) = a_commodity (pa_amount (ex_amount q))) as -> by done.
  destruct (decide _); [|done].
  assert (∀ z, dec_value (a_quantity (pa_amount (ex_amount z))) == inject_Z z * (1 # 100))%Q as H.
  { intros z. unfold dec_value, ex_amount, d_signed. cbn. assert ((if (z <? 0)%Z then - Z.of_N (Z.to_N (Z.abs z)) else Z.of_N (Z.to_N (Z.abs z))) = z)%Z as -> by (destruct (Z.ltb_spec z 0); lia).
    change (inject_Z z / (100 # 1) == inject_Z z * (1 # 100))%Q. field. }
  rewrite !H, inject_Z_opp. ring.
Qed.
Definition bk_m1 : merger := (merge default_order merger_new bk_s0).1.
Definition bk_m2 : merger := (merge default_order bk_m1 bk_s1).1.
Definition bk_j1 : journal := spec_merge journal_new bk_s0.
Lemma bk_merge1 : merge default_order merger_new bk_s0 = (bk_m1, Ok []).
Proof. apply merge_eq. by_compute. Qed.
Lemma bk_merge2 : merge default_order bk_m1 bk_s1 = (bk_m2, Ok []).
Proof. apply merge_eq. by_compute. Qed.
Lemma bk_m1_reachable : reachable bk_m1.
Proof. unfold bk_m1. constructor; [constructor|exact default_order_ok]. Qed.
Lemma bk_m1_represents : represents bk_m1 bk_j1.
Proof. destruct (merge_inv merger_new journal_new reach_new rep_new default_order bk_s0 bk_m1 [] default_order_ok bk_merge1) as (_ & _ & H & _). exact H. Qed.
Definition all_or_noneb (j : journal) (tp : transaction_postings) : bool :=
  forallb (is_new j tp) (tp_posts tp) || forallb (λ p, negb (is_new j tp p)) (tp_posts tp).
Lemma all_or_none_check j tp : all_or_noneb j tp = true → all_or_none j tp.
Proof.
  unfold all_or_noneb. rewrite orb_true_iff, !forallb_forall. intros [H|H]; [left|right]; intros p Hp%elem_of_list_In.
  - apply is_new_spec. by apply H.
  - rewrite <- is_new_spec. apply H in Hp. by destruct (is_new j tp p).
Qed.
Lemma bk_step1 tp : tp ∈ bk_s0 → in_balance tp ∧ all_or_none journal_new tp.
Proof.
  assert (forallb (all_or_noneb journal_new) bk_s0 = true) as H by (vm_compute; reflexivity). rewrite forallb_forall in H.
  intros Htp. split; [|by apply all_or_none_check, H, elem_of_list_In]. unfold bk_s0 in Htp. rewrite !elem_of_cons in Htp.
  destruct Htp as [->|[->|[]%elem_of_nil]]; apply bk_balance.
Qed.
Lemma bk_step2 tp : tp ∈ bk_s1 → in_balance tp ∧ all_or_none bk_j1 tp.
Proof.
  assert (forallb (all_or_noneb bk_j1) bk_s1 = true) as H by (vm_compute; reflexivity). rewrite forallb_forall in H.
  intros Htp. split; [|by apply all_or_none_check, H, elem_of_list_In]. unfold bk_s1 in Htp. rewrite !elem_of_cons in Htp.
  destruct Htp as [->|[->|[]%elem_of_nil]]; apply bk_balance.
Qed.
Lemma bk_run : balanced_run merger_new (pair default_order <$> [bk_s0; bk_s1]) bk_m2.
Proof.
  refine (balanced_cons _ _ _ _ _ _ _ _ default_order_ok bk_merge1 rep_new (λ tp H _, bk_step1 tp H) _).
  refine (balanced_cons _ _ _ _ _ _ _ _ default_order_ok bk_merge2 bk_m1_represents (λ tp H _, bk_step2 tp H) _). constructor.
Qed.
(** Half of this transaction is in the journal. *)
Definition bk_half := bk_pay day1 (s2l "shop") 500 (s2l "expenses:toys") (s2l "fp-a1") (s2l "fp-d2") [].
Definition bk_before := bk_pay day1 (s2l "shop") 500 food (s2l "fp-a1") (s2l "fp-a2") [].
Lemma bk_unbalanced : ∃ m1 m2 out, merge default_order merger_new [bk_before] = (m1, Ok []) ∧ merge default_order m1 [bk_half] = (m2, Ok []) ∧
  build default_order m2 = Ok [out] ∧ ¬ in_balance out.
Proof.
  set (m1 := (merge default_order merger_new [bk_before]).1). set (m2 := (merge default_order m1 [bk_half]).1).
  assert (∃ out, build default_order m2 = Ok [out] ∧ Qeq_bool (posts_value (Commodity (s2l "GBP") PosLeft) (tp_posts out)) 0 = false) as (out & H1 & H2).
  { eexists. split; vm_compute; reflexivity. }
  exists m1, m2, out. split; [apply merge_eq; by_compute|]. split; [apply merge_eq; by_compute|]. split; [exact H1|].
  intros H. specialize (H (Commodity (s2l "GBP") PosLeft)). apply Qeq_bool_iff in H. congruence.
Qed.
(** The sets in files. *)
Definition bk_l0 : ledger := into_ledger default_order bk_s0.
Definition bk_l1 : ledger := into_ledger default_order bk_s1.
Definition bk_E : env := ex_env [(s2l "A", bk_l0); (s2l "B", bk_l1)].
Definition bk_world : world := World {[ s2l "a" := s2l "A"; s2l "b" := s2l "B" ]} ∅ [] [].
Lemma bk_journals : journals bk_E bk_world [Path (s2l "a"); Path (s2l "b")] [bk_s0; bk_s1] bk_world.
Proof.
  assert (bk_s0 = transaction_postings_of <$> ledger_trns bk_l0) as E by by_compute.
  assert (bk_s1 = transaction_postings_of <$> ledger_trns bk_l1) as E1 by by_compute.
  rewrite E, E1. eapply journals_cons; [| | |eapply journals_cons; [| | |constructor]].
  1,4: eapply reads_path; [done|vm_compute; reflexivity|vm_compute; reflexivity].
  1,3: unfold supported; by_compute.
  all: apply Forall_forall; by_compute.
Qed.
Lemma bk_merges : merges default_order merger_new [bk_s0; bk_s1] [] bk_m2.
Proof.
  change (@nil transaction_postings) with ([] ++ [] ++ @nil transaction_postings). econstructor; [exact bk_merge1|]. econstructor; [exact bk_merge2|]. constructor.
Qed.

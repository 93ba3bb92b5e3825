(** Literal worlds for the examples beside the theorems about the commands. *)
From Verif Require Import Base Types CommentModel MergeModel CmdModel SpecBase BaseProofs MergeSpec MergeClaims MergeBuild MergeExamples
  CommentClaims CommentExamples CmdClaims CmdProofs CmdMerge CmdMerge2 CmdIdem CmdFp.
Local Open Scope nat_scope.

(** A parser and printer that know a few texts. *)
Definition codec := list (str * ledger).
Definition ex_parse (c : codec) (s : str) : option ledger := snd <$> find (λ e, str_eqb e.1 s) c.
Definition ex_print (c : codec) (l : ledger) : str := default (s2l "?") (fst <$> find (λ e, bool_decide (e.2 = l)) c).
Definition ex_env (c : codec) : env :=
  Env (ex_parse c) (ex_print c) (λ p, s2l """" ++ p ++ s2l """") (λ _, Some (s2l "dir"))
    (λ _, false) (λ _, false) (λ _, None) (λ _, false).

Definition ex_l1 : ledger := into_ledger default_order ex_s0.
Definition ex_l2 : ledger := into_ledger default_order [ex_u1; ex_u2; ex_u3; ex_u4].
Definition ex_c0 : codec := [(s2l "J1", ex_l1); (s2l "J2", ex_l2)].
Definition ex_inputs : list filespec := [Path (s2l "a"); Path (s2l "b")].
Definition ex_w : world :=
  World {[ s2l "a" := s2l "J1"; s2l "b" := s2l "J2"; s2l "out" := s2l "OLD"; s2l "odd" := s2l "?!" ]} ∅ [] [].
Definition ex_merged : merger * list transaction_postings :=
  match (merge_inputs (ex_env ex_c0) default_order merger_new [] ex_inputs ex_w).2 with Ok x => x | _ => (merger_new, []) end.
Definition ex_un : list transaction_postings := ex_merged.2.
Definition ex_built : list transaction_postings :=
  match build default_order ex_merged.1 with Ok l => l | _ => [] end.
Definition ex_out_ledger : ledger := into_ledger default_order (strip_sources ex_built).
Definition ex_c1 : codec := ex_c0 ++ [(s2l "OUT", ex_out_ledger); (s2l "UN", into_ledger default_order ex_un)].
Definition ex_E : env := ex_env ex_c1.
Definition ex_um : option filespec := Some (Path (s2l "un")).
Definition ex_run : list event * result unit := merge_cmd ex_E default_order ex_inputs ex_um (Path (s2l "out")) ex_w.
Definition ex_w1 : world := steps ex_w ex_run.1.

Lemma ex_writable f : writable ex_E f.
Proof. by destruct f. Qed.
Lemma ex_run_ok : ex_run = (ex_run.1, Ok tt).
Proof. rewrite (surjective_pairing ex_run) at 1. apply (f_equal (pair _)). by_compute. Qed.
Lemma ex_files : (ex_w1.(w_files) !! s2l "out", ex_w1.(w_files) !! s2l "un") = (Some (s2l "OUT"), Some (s2l "UN")).
Proof. by_compute. Qed.

(** A run that ends well is complete; one that ends badly although everything
    can be written is not. *)
Lemma complete_of_run E ho inputs um output w es :
  hash_order_ok ho → merge_cmd E ho inputs um output w = (es, Ok tt) →
  ∃ un m, merge_complete E ho w inputs um un m.
Proof. intros Hho H. destruct (c25_written E ho inputs um output w es Hho H) as (un & m & _ & _ & Hm & _). eauto. Qed.
Lemma incomplete_of_run E ho inputs um output w e :
  hash_order_ok ho → (∀ f, writable E f) → (merge_cmd E ho inputs um output w).2 = Err e →
  ∀ un m, ¬ merge_complete E ho w inputs um un m.
Proof.
  intros Hho Hw H un m Hm. destruct (c25_success E ho inputs um output w un m Hho Hm) as [es Hs]; [auto..|].
  rewrite Hs in H. done.
Qed.
Lemma ex_complete : ∃ un m, merge_complete ex_E default_order ex_w ex_inputs ex_um un m.
Proof. exact (complete_of_run _ _ _ _ _ _ _ default_order_ok ex_run_ok). Qed.

Lemma merge_complete_of E ho inputs um w m un : hash_order_ok ho →
  (merge_inputs E ho merger_new [] inputs w).2 = Ok (m, un) → un = [] ∨ is_Some um → merge_complete E ho w inputs um un m.
Proof.
  intros Hho H Hp. destruct (merge_inputs E ho merger_new [] inputs w) as [es r] eqn:Er. simpl in H. subst r.
  destruct (merge_inputs_spec E ho inputs Hho merger_new [] w reach_new) as (es' & r' & E' & _ & Hcase). rewrite Er in E'. injection E' as <- <-.
  destruct Hcase as [(sets & u & m' & [= -> ->] & Ha & Hm)|([e ?] & _)]; [|done]. split; [|done]. eauto.
Qed.
Lemma unsourced_fun x y z : unsourced x y → unsourced x z → y = z.
Proof.
  intros (A1 & A2 & A3 & A4 & A5 & A6) (B1 & B2 & B3 & B4 & B5 & B6).
  destruct y as [[raw c] ps], z as [[raw' c'] ps']. destruct c as [l t v], c' as [l' t' v']. simpl in *. subst. do 3 f_equal.
  apply map_eq. intros k. destruct (decide (k = s2l "source-file")) as [->|Hk]; [by rewrite A5, B5|by rewrite A6, B6].
Qed.
Lemma unsourced_strip out out' : Forall2 unsourced out out' → out' = strip_sources out.
Proof.
  intros H. pose proof (strip_unsourced out) as H'. revert H'. generalize (strip_sources out). induction H as [|x y l k Hxy H IH];
    intros k' H'; inversion H'; subst; [done|]. f_equal; [by eapply unsourced_fun|auto].
Qed.
Lemma ex_merged_complete : merge_complete ex_E default_order ex_w ex_inputs ex_um ex_un ex_merged.1.
Proof.
  apply merge_complete_of; [apply default_order_ok| |by right]. vm_compute. reflexivity.
Qed.
Definition comments_writable_b (tp : transaction_postings) : Prop :=
  representable_b (ti_comment (tp_trn tp)) ∧ Forall (λ p, representable_b (pi_comment p)) (tp_posts tp).
#[export] Instance comments_writable_b_dec tp : Decision (comments_writable_b tp).
Proof. unfold comments_writable_b. apply _. Defined.
Lemma writable_compute tps : Forall comments_writable_b tps → ∀ tp, tp ∈ tps → comments_writable tp.
Proof.
  intros H tp Htp. rewrite Forall_forall in H. destruct (H tp Htp) as [H1 H2]. split; [by apply representable_compute|].
  intros p Hp. rewrite Forall_forall in H2. by apply representable_compute, H2.
Qed.
(** What C30 asks of printer, parser and comments. *)
Lemma rereadable E ho inputs um w m un out : merge_complete E ho w inputs um un m → build ho m = Ok out →
  (let l := into_ledger ho (strip_sources out) in e_parse E (e_print E l) = Some l) →
  Forall comments_writable_b (strip_sources out) →
  ∀ un' m' out1 out', merge_complete E ho w inputs um un' m' → build ho m' = Ok out1 → Forall2 unsourced out1 out' →
   (let l := into_ledger ho out' in e_parse E (e_print E l) = Some l) ∧ ∀ tp, tp ∈ out' → comments_writable tp.
Proof.
  intros Hm Hb Hl Hw un' m' out1 out' Hm' Hb' Hu. destruct (merge_complete_fun _ _ _ _ _ _ _ _ _ Hm Hm') as [<- <-].
  rewrite Hb in Hb'. injection Hb' as <-. apply unsourced_strip in Hu as ->. split; [done|]. by apply writable_compute.
Qed.
Lemma ex_rereadable : ∀ un' m' out1 out', merge_complete ex_E default_order ex_w ex_inputs ex_um un' m' →
   build default_order m' = Ok out1 → Forall2 unsourced out1 out' →
   (let l := into_ledger default_order out' in e_parse ex_E (e_print ex_E l) = Some l) ∧ ∀ tp, tp ∈ out' → comments_writable tp.
Proof.
  eapply (rereadable ex_E default_order ex_inputs ex_um ex_w _ _ ex_built ex_merged_complete).
  - vm_compute. reflexivity.
  - cbv zeta. by_compute.
  - by_compute.
Qed.
Lemma parsed_compute tps : Forall (λ tp, tp = transaction_postings_of (transaction_of_postings default_order tp)) tps →
  ∀ tp, tp ∈ tps → ∃ t, tp = transaction_postings_of t.
Proof. intros H tp Htp. rewrite Forall_forall in H. eexists. by apply H. Qed.
Lemma ex_s0_parsed : ∀ tp, tp ∈ ex_s0 → ∃ t, tp = transaction_postings_of t.
Proof. apply parsed_compute. by_compute. Qed.

(** A journal whose comment changes when it is written and read again. *)
Definition key_ledger (c : option str) : ledger := [ItemTransaction (Transaction c day1 None None None (s2l "shop")
  [Posting bank Real (Some (ex_amount 5)) None None (Some (s2l ":fp-a:"))])].
Definition key_trns (l : ledger) : list transaction_postings := transaction_postings_of <$> ledger_trns l.
Definition key_l0 : ledger := key_ledger (Some (s2l "key:")).
Definition key_l1 : ledger := into_ledger default_order (key_trns key_l0).
Definition key_E : env := ex_env [(s2l "L0", key_l0); (s2l "L1", key_l1)].
Definition key_w : world := World {[ s2l "in" := s2l "L0" ]} ∅ [] [].
Lemma key_changes : ∃ es es2,
  merge_cmd key_E default_order [Path (s2l "in")] None (Path (s2l "out")) key_w = (es, Ok tt) ∧
  merge_cmd key_E default_order [Path (s2l "out")] None (Path (s2l "out")) (steps key_w es) = (es2, Ok tt) ∧
  w_files (steps key_w es) !! s2l "out" = Some (s2l "L1") ∧
  w_files (steps (steps key_w es) es2) !! s2l "out" = Some (s2l "L0") ∧
  ∀ l, l ∈ [key_l0; key_l1] → e_parse key_E (e_print key_E l) = Some l.
Proof.
  eexists _, _. split; [vm_compute; reflexivity|]. split; [vm_compute; reflexivity|]. split; [vm_compute; reflexivity|].
  split; [vm_compute; reflexivity|]. intros l Hl. repeat (apply elem_of_cons in Hl as [->|Hl]; [vm_compute; reflexivity|]).
  by apply elem_of_nil in Hl.
Qed.

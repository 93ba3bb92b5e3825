(** Proofs for C147: dividing rules among files. *)
From stdpp Require Import gmap list.
From Verif Require Import Base Types CommentModel MergeModel CmdModel SpecBase BaseProofs RulesModel RulesClaims RulesProofs RulesLoad DivideClaims.
Local Open Scope nat_scope.

Lemma divide_tables F F' p p' T T' : chains_of_files F p T → chains_of_files F' p' T' → same_chains F F' p p' → T = T'.
Proof.
  intros H1 H2 H3. apply map_eq. intros n. apply option_eq. intros rs. rewrite (H1 n rs), (H2 n rs). apply H3.
Qed.
Lemma loads F paths n p : one_file F → all_paths F paths → length paths < n → in_order F p →
  ∃ T, load_file F n p = Some (Ok T) ∧ chains_of_files F p T.
Proof.
  intros Ho Ha Hn [H1 H2]. destruct (load_file F n p) as [[T|e|]|] eqn:E.
  - exists T. split; [done|]. by apply (c59_sound F n p T Ho).
  - by apply c59_error in E as [[_ ?]|[_ ?]].
  - by apply load_no_panic in E.
  - by apply (c59_terminates F paths) in E.
Qed.
Lemma loads_not F paths n p : one_file F → all_paths F paths → length paths < n → ¬ in_order F p →
  ∃ e, load_file F n p = Some (Err e).
Proof.
  intros Ho Ha Hn Hi. destruct (load_file F n p) as [[T|e|]|] eqn:E.
  - destruct Hi. by apply c59_sound in E as (? & ? & _).
  - by exists e.
  - by apply load_no_panic in E.
  - by apply (c59_terminates F paths) in E.
Qed.
Lemma load_cmd E X F F' ho n p p' input output w : load_file F n p = load_file F' n p' →
  rules_cmd E X F ho n p input output w = rules_cmd E X F' ho n p' input output w.
Proof. intros H. unfold rules_cmd, load_from_path. by rewrite H. Qed.

Lemma c147 E X F F' paths paths' ho n p p' input output w :
  one_file F → one_file F' → all_paths F paths → all_paths F' paths' → length paths < n → length paths' < n →
  in_order F p → in_order F' p' → same_chains F F' p p' →
  rules_cmd E X F' ho n p' input output w = rules_cmd E X F ho n p input output w.
Proof.
  intros Ho Ho' Ha Ha' Hn Hn' Hi Hi' Hc. apply load_cmd.
  destruct (loads F paths n p) as (T & -> & HT); [done..|]. destruct (loads F' paths' n p') as (T' & -> & HT'); [done..|].
  by rewrite (divide_tables F F' p p' T T').
Qed.

(** Another order of the entries. *)
Lemma reordered_sym F F' : reordered F F' → reordered F' F.
Proof. intros [H1 H2 H3 H4]. split; intros; [|done..]. destruct (H1 p); constructor. by symmetry. Qed.
Lemma reordered_entries F F' q es : reordered F F' → rf_open F q = Some es → ∃ es', rf_open F' q = Some es' ∧ es ≡ₚ es'.
Proof. intros H E. pose proof (ro_open _ _ H q) as Hq. rewrite E in Hq. inversion Hq; subst. by eexists. Qed.
Lemma reordered_includes F F' q p : reordered F F' → includes F q p → includes F' q p.
Proof.
  intros H (es & i & dir & H1 & H2 & H3 & ->). destruct (reordered_entries _ _ _ _ H H1) as (es' & E & Hp).
  exists es', i, dir. split_and!; [done|by rewrite <- Hp|by rewrite (ro_parent _ _ H)|by rewrite (ro_join _ _ H)].
Qed.
Lemma reordered_reached F F' p q : reordered F F' → reached F p q → reached F' p q.
Proof.
  intros H. induction 1 as [q Hq|q p' q' _ IH Hi Hq].
  - apply reached_root. by rewrite (ro_canonical _ _ H).
  - eapply reached_include; [done|by eapply reordered_includes|]. by rewrite (ro_canonical _ _ H).
Qed.
Lemma reordered_readable F F' p : reordered F F' → readable F p → readable F' p.
Proof.
  intros H [[es H1] H2]. split; [|by rewrite (ro_canonical _ _ H)]. destruct (reordered_entries _ _ _ _ H H1) as (es' & E & _). by eexists.
Qed.
Lemma reordered_definitions F F' q : reordered F F' → definitions F q ≡ₚ definitions F' q.
Proof.
  intros H. unfold definitions. destruct (ro_open _ _ H q) as [es es' Hp|]; [|done]. cbn. induction Hp as [|e l l' Hp IH|e e' l|l l' l'' Hp IH Hp' IH'].
  - done.
  - csimpl. destruct e; [done|]. by rewrite IH.
  - csimpl. destruct e, e'; try done. constructor.
  - by rewrite IH.
Qed.
Lemma reordered_in_order F F' p : reordered F F' → in_order F p → in_order F' p.
Proof.
  intros H [[H1 H2] [H3 H4]]. pose proof (reordered_sym _ _ H) as H'.
  assert (∀ q, reached F' p q → reached F p q) as Hr by (intros q; by apply reordered_reached).
  split; split.
  - by eapply reordered_readable.
  - intros q Hq. destruct (H2 q (Hr q Hq)) as [J1 J2]. split.
    + intros p' Hp. eapply reordered_readable; [done|]. apply J1. by eapply reordered_includes.
    + intros es i E Hi. destruct (reordered_entries _ _ _ _ H' E) as (es' & E' & Hp). rewrite (ro_parent _ _ H).
      apply (J2 es' i E'). by rewrite <- Hp.
  - intros q Hq. rewrite <- (reordered_definitions F F' q H). auto.
  - intros q q' n rs rs' Hq Hq'. rewrite <- (reordered_definitions F F' q H), <- (reordered_definitions F F' q' H). eauto.
Qed.
Lemma reordered_chains F F' p : reordered F F' → same_chains F F' p p.
Proof.
  intros H n rs. pose proof (reordered_sym _ _ H) as H'. split; intros (q & Hq & Hd); exists q.
  - split; [by eapply reordered_reached|]. by rewrite <- (reordered_definitions F F' q H).
  - split; [by eapply reordered_reached|]. by rewrite (reordered_definitions F F' q H).
Qed.
Lemma c147_order E X F F' paths ho n p input output w :
  one_file F → one_file F' → all_paths F paths → length paths < n → reordered F F' →
  rules_cmd E X F' ho n p input output w = rules_cmd E X F ho n p input output w ∨
  ∃ e e', rules_cmd E X F ho n p input output w = ([], Err e) ∧ rules_cmd E X F' ho n p input output w = ([], Err e').
Proof.
  intros Ho Ho' Ha Hn H. assert (all_paths F' paths) as Ha' by (intros q q'; rewrite (ro_canonical _ _ H); apply Ha).
  destruct (load_file F n p) as [[T|e|]|] eqn:El.
  - left. apply c59_sound in El as (H1 & H2 & _); [|done]. apply (c147 E X F F' paths paths); try done.
    + by eapply reordered_in_order.
    + by apply reordered_chains.
  - right. destruct (loads_not F' paths n p) as [e' El']; [done..| |].
    { intros Hi. apply (reordered_in_order F' F p (reordered_sym _ _ H)) in Hi as [H1 H2]. by apply c59_error in El as [[_ ?]|[_ ?]]. }
    exists e, e'. unfold rules_cmd, load_from_path. by rewrite El, El'.
  - by apply load_no_panic in El.
  - by apply (c59_terminates F paths) in El.
Qed.

(** Dividing rules among files (C147).  The vocabulary is in DivideClaims.v and
    RulesClaims.v. *)
From stdpp Require Import gmap list.
From Verif Require Import Base Types CommentModel MergeModel CmdModel SpecBase BaseProofs CommentExamples MergeExamples CmdClaims CmdProofs CmdExamples
  RulesModel RulesClaims RulesLoad RulesExamples DivideClaims Divide.
Local Open Scope nat_scope.

(** C147: if the same chains are defined, it makes no difference in which files, and which
    of them includes which: the command does exactly the same. *)
Theorem C147_divided E X F F' paths paths' ho n p p' input output w :
  one_file F → one_file F' → all_paths F paths → all_paths F' paths' → length paths < n → length paths' < n →
  in_order F p → in_order F' p' → same_chains F F' p p' →
  rules_cmd E X F' ho n p' input output w = rules_cmd E X F ho n p input output w.
Proof. exact (c147 E X F F' paths paths' ho n p p' input output w). Qed.
Print Assumptions C147_divided.

(** The order in which includes and chains are written in the files makes no difference
    at all: the command does exactly the same, or loading the rules fails with both, and
    nothing is done. *)
Theorem C147_order E X F F' paths ho n p input output w :
  one_file F → one_file F' → all_paths F paths → length paths < n → reordered F F' →
  rules_cmd E X F' ho n p input output w = rules_cmd E X F ho n p input output w ∨
  ∃ e e', rules_cmd E X F ho n p input output w = ([], Err e) ∧ rules_cmd E X F' ho n p input output w = ([], Err e').
Proof. exact (c147_order E X F F' paths ho n p input output w). Qed.
Print Assumptions C147_order.

(** Four files that include each other, and all in one file. *)
Definition dv_open (p : str) : option (list entry) :=
  if str_eqb p (s2l "/one") then Some [EChain (s2l "b") []; EChain (s2l "sub") rx_sub; EChain (s2l "start") rx_start] else None.
Definition dv_F : rules_fs :=
  RulesFs dv_open (λ p, if dv_open p then Some p else None) (λ _, Some (s2l "/")) (λ d p, d ++ p).
Lemma dv_one : one_file dv_F.
Proof. intros p q. cbn. destruct (dv_open p) eqn:E; [|done]. intros [= <-]. by rewrite E. Qed.
Lemma dv_all : all_paths dv_F [s2l "/one"].
Proof.
  intros p q. cbn. unfold dv_open. destruct (str_eqb p (s2l "/one")) eqn:E; [|done]. intros [= <-].
  unfold str_eqb in E. apply bool_decide_eq_true in E. subst p. by left.
Qed.
Lemma dv_in_order F n p T : one_file F → load_file F n p = Some (Ok T) → in_order F p ∧ chains_of_files F p T.
Proof. intros H1 H2. by destruct (c59_sound F n p T H1 H2) as (? & ? & ?). Qed.
Definition dv_ok {A} (r : run A) : bool := match r with Some (Ok _) => true | _ => false end.
Lemma dv_same (r r' : run table) : option_map (rmap (λ T : table, map_to_list T)) r = option_map (rmap (λ T : table, map_to_list T)) r' → dv_ok r = true →
  ∃ T, r = Some (Ok T) ∧ r' = Some (Ok T).
Proof.
  destruct r as [[T| |]|], r' as [[T'| |]|]; try done. cbn. intros [= H] _. exists T. split; [done|].
  rewrite <- (list_to_map_to_list T), <- (list_to_map_to_list T'). by rewrite H.
Qed.
Example C147_ex : one_file rx_F ∧ one_file dv_F ∧ all_paths rx_F rx_paths ∧ all_paths dv_F [s2l "/one"] ∧
  in_order rx_F (s2l "/r/main") ∧ in_order dv_F (s2l "/one") ∧ same_chains rx_F dv_F (s2l "/r/main") (s2l "/one") ∧
  (rules_cmd rx_E rx_X dv_F default_order 7 (s2l "/one") (Path (s2l "a")) (Path (s2l "out")) ex_w).2 = Ok (Some tt).
Proof.
  destruct (dv_same (load_file rx_F 7 (s2l "/r/main")) (load_file dv_F 7 (s2l "/one"))) as (T & H1 & H2); [vm_compute; reflexivity|vm_compute; reflexivity|].
  destruct (dv_in_order _ _ _ _ rx_one H1) as [I1 C1], (dv_in_order _ _ _ _ dv_one H2) as [I2 C2].
  split_and!; [exact rx_one|exact dv_one|exact rx_all|exact dv_all|done|done| |by_compute].
  intros n rs. by rewrite <- (C1 n rs), <- (C2 n rs).
Qed.
(** All files turned round. *)
Definition dv_R : rules_fs := RulesFs (λ p, reverse <$> rx_open p) rx_canonical (rf_parent rx_F) (rf_join rx_F).
Example C147_order_ex : one_file rx_F ∧ one_file dv_R ∧ all_paths rx_F rx_paths ∧ length rx_paths < 7 ∧ reordered rx_F dv_R ∧
  (rules_cmd rx_E rx_X dv_R default_order 7 (s2l "/r/main") (Path (s2l "a")) (Path (s2l "out")) ex_w).2 = Ok (Some tt) ∧
  (rules_cmd rx_E rx_X dv_R default_order 7 (s2l "/r/twice") (Path (s2l "a")) (Path (s2l "out")) ex_w).2 = Err EDupChain.
Proof.
  split_and!; [exact rx_one| |exact rx_all|by_compute| |by_compute|by_compute].
  - intros p q H. change (reverse <$> rf_open rx_F p = reverse <$> rf_open rx_F q). by rewrite (rx_one p q H).
  - split; try done. intros p. change (option_Forall2 (≡ₚ) (rx_open p) (reverse <$> rx_open p)). destruct (rx_open p); constructor. by rewrite reverse_Permutation.
Qed.

(** C53-C59, C73-C75: the rules.  The vocabulary is in RulesClaims.v.  Chains can
    jump to each other for ever, so the functions of the model take a bound on
    the depth of chains inside each other; [None] is "not ended within it". *)
From stdpp Require Import gmap list relations.
From Verif Require Import Base Types CommentModel MergeModel CmdModel SpecBase BaseProofs CommentExamples MergeExamples CmdClaims CmdProofs CmdExamples
  RulesModel RulesClaims RulesProofs RulesLaws RulesLoad RulesCmd RulesExamples.
Local Open Scope nat_scope.

(** C53 *)
Theorem C53_kept X ho T n tps out :
  hash_order_ok ho → update_transactions X ho T n tps = Some (Ok out) → Forall2 tp_kept tps out.
Proof. exact (c53_kept X ho T n tps out). Qed.
Print Assumptions C53_kept.
(** What did change was asked for by an action of the table. *)
Theorem C53_changes X ho T n tps out :
  hash_order_ok ho → update_transactions X ho T n tps = Some (Ok out) → Forall2 (tp_changes T) tps out.
Proof. exact (c53_changes X ho T n tps out). Qed.
Print Assumptions C53_changes.
Example C53_ex : option_map (rmap (map rx_shape)) (update_transactions rx_X default_order rx_T 2 ex_s0) =
  Some (Ok [ (s2l "cafe", [(s2l "by", s2l "rules")], [(s2l "assets:not-market", [s2l "fp-c1"]); (s2l "other", [s2l "fp-c2"])]);
    (s2l "shop", [(s2l "by", s2l "rules")],
       [(s2l "assets:not-market", [s2l "fp-a1"]); (s2l "other", [s2l "fp-a2"; s2l "unknown-account"])]);
    (s2l "MARKET", [(s2l "by", s2l "rules")],
       [(bank, [s2l "fp-b1"]); (s2l "assets:not-market", [s2l "fp-b2"])]) ]).
Proof. by_compute. Qed.

(** C54: the evaluator and the relation that describes it rule by rule. *)
Theorem C54_meaning X ho T name c out :
  hash_order_ok ho → (∃ n, apply_chain X ho T n name c = Some out) ↔ chain_ends X T name c out.
Proof. exact (c54_meaning X ho T name c out). Qed.
Print Assumptions C54_meaning.
Theorem C54_journal X ho T tps out :
  hash_order_ok ho → is_Some (T !! s2l "start") →
  (∃ n, update_transactions X ho T n tps = Some (Ok out)) ↔
  Forall2 (λ tp tp', posts_end X T (tp_trn tp) (tp_posts tp) (tp_trn tp') (tp_posts tp')) tps out.
Proof. exact (c54_journal X ho T tps out). Qed.
Print Assumptions C54_journal.
(** A larger bound does not change the outcome; there is one outcome. *)
Theorem C54_bound X ho T n n' tps out :
  n ≤ n' → update_transactions X ho T n tps = Some out → update_transactions X ho T n' tps = Some out.
Proof. exact (update_transactions_grows X ho T n n' tps out). Qed.
Print Assumptions C54_bound.
Theorem C54_one_outcome X T name c out out' :
  chain_ends X T name c out → chain_ends X T name c out' → out = out'.
Proof. exact (c54_det X T name c out out'). Qed.
Print Assumptions C54_one_outcome.
(** A Return ends the chain it is in; a jump goes on after the jumping rule,
    however the other chain ended. *)
Theorem C54_return X T name before r after c c1 c2 :
  T !! name = Some (before ++ r :: after) → r_result r = RReturn →
  (* the rules before it lead to [c1] *)
  rules_end X T before c (Ok c1) → Forall (λ r, r_result r = RContinue) before →
  holds_for X c1 (r_predicate r) → acts X T (r_action r) c1 (Ok c2) →
  ∀ out, chain_ends X T name c out ↔ out = Ok c2.
Proof. exact (c54_return X T name before r after c c1 c2). Qed.
Print Assumptions C54_return.
Theorem C54_jump X T name m res after c c1 out :
  T !! name = Some (Rule PTrue (AJump m) res :: after) → chain_ends X T m c (Ok c1) →
  chain_ends X T name c out ↔ match res with RReturn => out = Ok c1 | RContinue => rules_end X T after c1 out end.
Proof. exact (c54_jump X T name m res after c c1 out). Qed.
Print Assumptions C54_jump.
(** The Return in "sub" does not end "start": the tag is set after the jump. *)
Example C54_ex : option_map (rmap (λ c, (t_description (ti_raw (rc_trn c)), p_account (pi_raw (rc_post c)), value_tags (ti_comment (rc_trn c)) !! s2l "by")))
    (apply_chain rx_X default_order rx_T 2 (s2l "start") (RCtx (tp_trn ex_t2) (ex_post bank 1 []))) =
  Some (Ok (s2l "MARKET", bank, Some (s2l "rules"))) ∧
  apply_chain rx_X default_order rx_T 1 (s2l "start") (RCtx (tp_trn ex_t2) (ex_post bank 1 [])) = None.
Proof. split; by_compute. Qed.

(** C55: false; a jump inside an All is not validated. *)
Theorem C55_missing_chain_refuted : ∃ T tps, ∀ X ho n, hash_order_ok ho → 2 ≤ n →
  validate ho T = Ok tt ∧ update_transactions X ho T n tps = Some (Err EChainNotFound).
Proof. exact c55_refuted. Qed.
Print Assumptions C55_missing_chain_refuted.
(** What validation checks. *)
Theorem C55_validate ho T : hash_order_ok ho →
  (validate ho T = Ok tt ↔ start_and_jumps T) ∧ (validate ho T ≠ Ok tt → validate ho T = Err EChainNotFound).
Proof. exact (c55_validate ho T). Qed.
Print Assumptions C55_validate.

(** Rules loaded from a file have been checked. *)
Theorem C55_loaded F ho n p T : hash_order_ok ho → load_from_path F ho n p = Some (Ok T) → start_and_jumps T.
Proof. exact (loaded_checked F ho n p T). Qed.
Print Assumptions C55_loaded.
Example C55_loaded_ex : option_map (rmap (λ T : table, (map_to_list T).*1)) (load_from_path rx_F default_order 7 (s2l "/r/main")) =
  Some (Ok [s2l "b"; s2l "sub"; s2l "start"]).
Proof. by_compute. Qed.

(** C73 *)
Theorem C73_jumps X ho T n tps :
  hash_order_ok ho → (∀ name, used T name → is_Some (T !! name)) →
  update_transactions X ho T n tps ≠ Some (Err EChainNotFound).
Proof. exact (chains_found X ho T n tps). Qed.
Print Assumptions C73_jumps.
Theorem C73_validated X ho T n tps :
  hash_order_ok ho → validate ho T = Ok tt →
  (* jumps are not inside All *)
  (∀ name rs r m, T !! name = Some rs → r ∈ rs → within (AJump m) (r_action r) → r_action r = AJump m) →
  update_transactions X ho T n tps ≠ Some (Err EChainNotFound).
Proof. exact (c73_validated X ho T n tps). Qed.
Print Assumptions C73_validated.
(** Once the jumps are there, only an Error action makes the application fail. *)
Theorem C73_errors X ho T n tps :
  hash_order_ok ho → (∀ name, used T name → is_Some (T !! name)) →
  match update_transactions X ho T n tps with
  | Some (Err e) => e = ERuleError ∧ ∃ msg, has_action T (AError msg)
  | Some Panic => False
  | _ => True
  end.
Proof. exact (c73_errors X ho T n tps). Qed.
Print Assumptions C73_errors.
Example C73_ex : validate default_order rx_T = Ok tt ∧ (∀ name, used rx_T name → is_Some (rx_T !! name)) ∧
  (∀ name rs r m, rx_loop !! name = Some rs → r ∈ rs → within (AJump m) (r_action r) → r_action r = AJump m).
Proof. exact c73_ex. Qed.

(** C56: false; chains can jump in a circle. *)
Theorem C56_termination_refuted : ∃ T tps, ∀ X ho n, hash_order_ok ho →
  validate ho T = Ok tt ∧ update_transactions X ho T n tps = None.
Proof. exact c56_refuted. Qed.
Print Assumptions C56_termination_refuted.

(** C74 *)
Theorem C74_terminates X ho T tps :
  (∀ name, used T name → ¬ tc (jumps T) name name) → update_transactions X ho T (S (size T)) tps ≠ None.
Proof. exact (c74 X ho T tps). Qed.
Print Assumptions C74_terminates.
Example C74_ex : ∀ name, used rx_T name → ¬ tc (jumps rx_T) name name.
Proof. exact c74_ex. Qed.

(** C57 *)
Theorem C57_meaning X ho p c : hash_order_ok ho → is_match X ho p c = true ↔ holds_for X c p.
Proof. exact (is_match_holds X ho c p). Qed.
Print Assumptions C57_meaning.
Theorem C57_not X c p : fails_for X c p ↔ ¬ holds_for X c p.
Proof. exact (holds_not X c p). Qed.
Print Assumptions C57_not.
Theorem C57_boolean X c :
  holds_for X c PTrue ∧ (∀ p, holds_for X c (PNot p) ↔ ¬ holds_for X c p) ∧
  (∀ l, holds_for X c (PAll l) ↔ ∀ p, p ∈ l → holds_for X c p) ∧
  (∀ l, holds_for X c (PAny l) ↔ ∃ p, p ∈ l ∧ holds_for X c p) ∧
  (∀ l, holds_for X c (PNot (PAll l)) ↔ holds_for X c (PAny (PNot <$> l))) ∧
  (∀ l, holds_for X c (PNot (PAny l)) ↔ holds_for X c (PAll (PNot <$> l))).
Proof. exact (c57_boolean X c). Qed.
Print Assumptions C57_boolean.
Theorem C57_hash_order X ho ho' p c : hash_order_ok ho → hash_order_ok ho' → is_match X ho p c = is_match X ho' p c.
Proof. exact (c57_order X ho ho' p c). Qed.
Print Assumptions C57_hash_order.
Example C57_ex : let c := RCtx (tp_trn ex_t2) (ex_post bank 1 [s2l "Fp-b"; s2l "x"]) in
  map (λ p, is_match rx_X default_order p c)
    [ PFlagTag (MAsLower (MMatches (s2l "^fp-"))); PFlagTag (MMatches (s2l "^fp-")); PNot (PAny []); PAll [PTrue; is_account food];
      PAccount (MContains (s2l "bank")); PAccount (MContains (s2l "bank!")); PHasValueTag (s2l "x"); PHasFlagTag (s2l "x") ] =
  [true; false; true; false; true; false; false; true].
Proof. by_compute. Qed.

(** C58 *)
Theorem C58_stops E X F ho n rules input output w es r w' :
  hash_order_ok ho → one_file F → rules_cmd E X F ho n rules input output w = (es, r) →
  (∀ out, ¬ rules_applied E X F w rules input out) → crash_world w es w' →
  r ≠ Ok (Some tt) ∧ untouched w w'.
Proof. exact (c58_stops E X F ho n rules input output w es r w'). Qed.
Print Assumptions C58_stops.
(** An error at any posting is such a case. *)
Theorem C58_rule_error E X F w rules input T tps t before p after t1 before' e out :
  rules_loaded F rules T → journal_read E w input tps → TP t (before ++ p :: after) ∈ tps →
  posts_end X T t before t1 before' → chain_ends X T (s2l "start") (RCtx t1 p) (Err e) →
  ¬ rules_applied E X F w rules input out.
Proof. exact (c58_rule_error E X F w rules input T tps t before p after t1 before' e out). Qed.
Print Assumptions C58_rule_error.
Theorem C58_written E X F ho n rules input output w es :
  hash_order_ok ho → one_file F → rules_cmd E X F ho n rules input output w = (es, Ok (Some tt)) →
  ∃ out, rules_applied E X F w rules input out ∧ holds w (steps w es) output (e_print E (into_ledger ho out)) ∧
    ∀ p, output ≠ Path p → same_file w (steps w es) p.
Proof. exact (c58_written E X F ho n rules input output w es). Qed.
Print Assumptions C58_written.
Theorem C58_succeeds E X F ho paths rules input output w out :
  hash_order_ok ho → one_file F → all_paths F paths → rules_applied E X F w rules input out → writable E output →
  ∃ n0, ∀ n, n0 ≤ n → ∃ es, rules_cmd E X F ho n rules input output w = (es, Ok (Some tt)).
Proof. exact (c58_succeeds E X F ho paths rules input output w out). Qed.
Print Assumptions C58_succeeds.
Theorem C58_crash E X F ho n rules input output w es r w' :
  hash_order_ok ho → one_file F → rules_cmd E X F ho n rules input output w = (es, r) → crash_world w es w' →
  (∀ p, output ≠ Path p → same_file w w' p) ∧ w_dirs w' = w_dirs w ∧
  (untouched w w' ∨ ∃ out part rest, rules_applied E X F w rules input out ∧
     e_print E (into_ledger ho out) = part ++ rest ∧ holds w w' output part).
Proof. exact (c58_crash E X F ho n rules input output w es r w'). Qed.
Print Assumptions C58_crash.
Example C58_ex :
  let run := rules_cmd rx_E rx_X rx_F default_order 7 (s2l "/r/main") (Path (s2l "a")) (Path (s2l "out")) ex_w in
  run.2 = Ok (Some tt) ∧ w_files (steps ex_w run.1) !! s2l "out" = Some (s2l "RULED") ∧
  rules_cmd rx_E rx_X rx_F default_order 7 (s2l "/r/err") (Path (s2l "a")) (Path (s2l "out")) ex_w = ([], Err ERuleError).
Proof. cbv zeta. split_and!; by_compute. Qed.

(** C59 *)
Theorem C59_terminates F paths n p : all_paths F paths → length paths < n → load_file F n p ≠ None.
Proof. exact (c59_terminates F paths n p). Qed.
Print Assumptions C59_terminates.
Theorem C59_loaded F paths n p T :
  one_file F → all_paths F paths → length paths < n →
  load_file F n p = Some (Ok T) ↔ all_readable F p ∧ defined_once F p ∧ chains_of_files F p T.
Proof. exact (c59 F paths n p T). Qed.
Print Assumptions C59_loaded.
(** Also without a bound on the files, if it ends. *)
Theorem C59_sound F n p T :
  one_file F → load_file F n p = Some (Ok T) → all_readable F p ∧ defined_once F p ∧ chains_of_files F p T.
Proof. exact (c59_sound F n p T). Qed.
Print Assumptions C59_sound.
Theorem C59_errors F n p e :
  one_file F → load_file F n p = Some (Err e) →
  (e = EDupChain ∧ ¬ defined_once F p) ∨ (e ≠ EDupChain ∧ ¬ all_readable F p).
Proof. exact (c59_error F n p e). Qed.
Print Assumptions C59_errors.
(** main includes a and b, both include shared, a includes main. *)
Example C59_ex : one_file rx_F ∧ all_paths rx_F rx_paths ∧ length rx_paths < 7 ∧
  option_map (rmap (λ T : table, (map_to_list T).*1)) (load_file rx_F 7 (s2l "/r/main")) =
    Some (Ok [s2l "b"; s2l "sub"; s2l "start"]) ∧
  load_file rx_F 7 (s2l "/r/twice") = Some (Err EDupChain) ∧ load_file rx_F 7 (s2l "/r/none") = Some (Err EParse).
Proof. split_and!; [exact rx_one|exact rx_all|by_compute|by_compute|vm_compute; reflexivity|vm_compute; reflexivity]. Qed.

(** C75 *)
Theorem C75_independent X ho T n tps out :
  update_transactions X ho T n tps = Some (Ok out) ↔
  Forall2 (λ tp tp', update_transactions X ho T n [tp] = Some (Ok [tp'])) tps out.
Proof. exact (c75 X ho T n tps out). Qed.
Print Assumptions C75_independent.
(** The first transaction that fails decides. *)
Theorem C75_first_failure X ho T n tps e :
  update_transactions X ho T n tps = Some (Err e) ↔
  ∃ before tp after, tps = before ++ tp :: after ∧
    (∀ tp', tp' ∈ before → ∃ o, update_transactions X ho T n [tp'] = Some (Ok o)) ∧
    update_transactions X ho T n [tp] = Some (Err e).
Proof. exact (c75_failure X ho T n tps e). Qed.
Print Assumptions C75_first_failure.
Example C75_ex : let bad := {[ s2l "start" := [rule1 (is_account food) (AError (s2l "no"))] ]} in
  option_map (rmap (@length _)) (update_transactions rx_X default_order bad 1 [ex_t1]) = Some (Ok 1) ∧
  update_transactions rx_X default_order bad 1 [ex_t1; ex_t2] = Some (Err ERuleError).
Proof. cbv zeta. split; by_compute. Qed.

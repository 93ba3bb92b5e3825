(** C139: a journal can be kept in parts. *)
From Verif Require Import MergeClaims.
From Verif Require Import Base Types SpecBase BaseProofs CommentModel MergeModel CmdModel
  CommentClaims CmdClaims CommentExamples MergeExamples CmdExamples HeaderClaims AsideClaims Aside2 AsideExamples.
Local Open Scope nat_scope.

(** C139: transactions [old] are merged first; they do not concern the sets merged
    after them.  Then all goes as without them, and in the journal that results they
    stand unchanged beside the others. *)
Theorem C139_files old sets h ho ho' m0 : hash_order_ok h → hash_order_ok ho → hash_order_ok ho' →
  merge h merger_new old = (m0, Ok []) → Forall (unconcerned old) sets → same_aside old ho ho' merger_new m0 sets.
Proof. exact (c139_files old sets h ho ho' m0). Qed.
Print Assumptions C139_files.

(** The same if they are part of one journal file with others. *)
Theorem C139_parts old new sets h h' ho ho' m0 m0' : hash_order_ok h → hash_order_ok h' → hash_order_ok ho → hash_order_ok ho' →
  merge h merger_new new = (m0, Ok []) → merge h' merger_new (old ++ new) = (m0', Ok []) →
  Forall (unconcerned old) sets → same_aside old ho ho' m0 m0' sets.
Proof. exact (c139_parts old new sets h h' ho ho' m0 m0'). Qed.
Print Assumptions C139_parts.

(** The merge command, run on statements with the current part of a journal and with
    the whole. *)
Theorem C139_command E ho ho' cur whole statements old new ss o o' w w1 w2 es es' r r' m0 m0' :
  hash_order_ok ho → hash_order_ok ho' →
  journals E w (cur :: statements) (new :: ss) w1 → journals E w (whole :: statements) ((old ++ new) :: ss) w2 →
  (* each of the two can be merged on its own *)
  merge ho merger_new new = (m0, Ok []) → merge ho' merger_new (old ++ new) = (m0', Ok []) →
  Forall (unconcerned old) ss → writable E o → writable E o' →
  merge_cmd E ho (cur :: statements) None o w = (es, r) → merge_cmd E ho' (whole :: statements) None o' w = (es', r') →
  (r' = Ok tt ↔ r = Ok tt) ∧
  (r = Ok tt → ∃ out out', holds w (steps w es) o (e_print E (into_ledger ho out)) ∧
     holds w (steps w es') o' (e_print E (into_ledger ho' out')) ∧ put_together old out out').
Proof. exact (c139_command E ho ho' cur whole statements old new ss o o' w w1 w2 es es' r r' m0 m0'). Qed.
Print Assumptions C139_command.

(** If the old transactions are not later than any other, as those of past years, they
    come first, then the journal there is without them. *)
Theorem C139_past_years old new l old' : put_together old new l → put_together old [] old' →
  StronglySorted (λ a b, date_leb (tp_date a) (tp_date b) = true) new →
  (∀ a b, a ∈ old → b ∈ new → date_leb (tp_date a) (tp_date b) = true) →
  l = old' ++ new.
Proof. exact (put_together_before old new l old'). Qed.
Print Assumptions C139_past_years.

Example C139_ex :
  merge default_order merger_new ex_s0 = (as_m0, Ok []) ∧ merge reverse_order merger_new (as_old ++ ex_s0) = (as_m0', Ok []) ∧
  Forall (unconcerned as_old) [ex_s1] ∧ merges default_order as_m0 [ex_s1] [] (merge default_order as_m0 ex_s1).1 ∧
  tp_trn <$> as_out' = tp_trn <$> [as_o1; ex_t1; ex_t2; as_o2; ex_t3; ex_u3].
Proof.
  split; [apply merge_eq; by_compute|]. split; [apply merge_eq; by_compute|].
  split; [apply Forall_singleton, unconcerned_compute; vm_compute; reflexivity|].
  split; [|exact as_out_order].
  change (@nil transaction_postings) with (@nil transaction_postings ++ []). econstructor; [apply merge_eq; by_compute|constructor].
Qed.
Example C139_command_ex :
  let run := merge_cmd as_E default_order [Path (s2l "cur"); Path (s2l "s")] None (Path (s2l "out")) as_w in
  let run' := merge_cmd as_E default_order [Path (s2l "whole"); Path (s2l "s")] None (Path (s2l "out")) as_w in
  journals as_E as_w [Path (s2l "cur"); Path (s2l "s")] [as_read ex_s0; as_read ex_s1] as_w ∧
  journals as_E as_w [Path (s2l "whole"); Path (s2l "s")] [as_read as_old ++ as_read ex_s0; as_read ex_s1] as_w ∧
  (merge default_order merger_new (as_read ex_s0)).2 = Ok [] ∧
  (merge default_order merger_new (as_read as_old ++ as_read ex_s0)).2 = Ok [] ∧
  Forall (unconcerned (as_read as_old)) [as_read ex_s1] ∧ (∀ f, writable as_E f) ∧
  run.2 = Ok tt ∧ w_files (steps as_w run.1) !! s2l "out" = Some (s2l "OUT") ∧
  w_files (steps as_w run'.1) !! s2l "out" = Some (s2l "OUTWHOLE").
Proof.
  cbv zeta. split_and!.
  - exact (proj1 as_journals).
  - rewrite <- as_read_app. exact (proj2 as_journals).
  - by_compute.
  - by_compute.
  - apply Forall_singleton, unconcerned_compute. vm_compute. reflexivity.
  - by intros [].
  - by_compute.
  - by_compute.
  - by_compute.
Qed.
(** Transactions that do concern the statement change the result: here the journal has
    a payment like one of the statement, which is then not added. *)
Definition as_alike := ex_tp day2 (s2l "tram") [ex_post bank (-250) [s2l "fp-o5"]].
Theorem C139_unconcerned_needed : ∃ m m' out out',
  merges default_order merger_new [ex_s0; ex_s1] [] m ∧ merges default_order merger_new [[as_alike]; ex_s0; ex_s1] [] m' ∧
  build default_order m = Ok out ∧ build default_order m' = Ok out' ∧ length out' = length out.
Proof.
  eexists _, _, _, _.
  split. { do 2 (change (@nil transaction_postings) with (@nil transaction_postings ++ []); econstructor; [apply merge_eq; by_compute|]). constructor. }
  split. { do 3 (change (@nil transaction_postings) with (@nil transaction_postings ++ []); econstructor; [apply merge_eq; by_compute|]). constructor. }
  split; [vm_compute; reflexivity|]. split; vm_compute; reflexivity.
Qed.
Print Assumptions C139_unconcerned_needed.

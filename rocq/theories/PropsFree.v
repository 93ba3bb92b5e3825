(** Merging when every iteration over a hash table has an order of its own (C17, C91). *)
From stdpp Require Import gmap list.
From Verif Require Import Base Types CommentModel MergeModel CmdModel FreeOrderModel SpecBase BaseProofs MergeSpec MergeClaims PropsMergeProofs
  CommentClaims CommentLaws CmdClaims CmdProofs CmdMerge CmdMerge2 CmdIdem CmdOrder MergeExamples CmdExamples CommentExamples FreeClaims FreeOrder FreeCmd.
Local Open Scope nat_scope.

(** C17 without the assumption that equal tables are listed alike: whatever the order of
    each single iteration, the merger ends up as it does with any one order, and what is
    handed back differs from it in candidate tags at most. *)
Theorem C17_every_iteration m os listed ho tps :
  reachable m → orders_ok os → (∀ mp, listed mp ≡ₚ map_to_list mp) → hash_order_ok ho →
  (merge_free os listed m tps).1 = (merge ho m tps).1 ∧
  ((∃ un un', (merge_free os listed m tps).2 = Ok un ∧ (merge ho m tps).2 = Ok un' ∧ Forall2 equal_but_candidates un un') ∨
   (∃ e e', (merge_free os listed m tps).2 = Err e ∧ (merge ho m tps).2 = Err e')).
Proof. exact (merge_free_order m os listed ho tps). Qed.
Print Assumptions C17_every_iteration.
(** So the mergers reached in this way are those reached with one order per merge. *)
Theorem C17_same_mergers m os listed tps :
  reachable m → orders_ok os → (∀ mp, listed mp ≡ₚ map_to_list mp) → reachable (merge_free os listed m tps).1.
Proof. exact (merge_free_reachable m os listed tps). Qed.
Print Assumptions C17_same_mergers.
(** With one order throughout, it is the merge of the other theorems. *)
Theorem C17_one_order ho m tps : merge_free (λ _, ho) map_to_list m tps = merge ho m tps.
Proof. exact (merge_same ho m tps). Qed.
Print Assumptions C17_one_order.

(** Orders that alternate with the depth of the place: the input's two candidates are
    named by different rules, which no single order does. *)
Definition mixed : orders := λ place, if Nat.even (length place) then default_order else reverse_order.
Lemma mixed_ok : orders_ok mixed.
Proof. intros place. unfold mixed. destruct (Nat.even _); [exact default_order_ok|exact reverse_order_ok]. Qed.
Definition backwards (mp : gmap nat (list input)) : list (nat * list input) := reverse (map_to_list mp).
Lemma backwards_ok mp : backwards mp ≡ₚ map_to_list mp.
Proof. apply reverse_Permutation. Qed.
Definition free_s0 := [ex_tp day1 (s2l "shop") [ex_post bank (-500) [s2l "fp-a1"; s2l "fp-a2"]];
  ex_tp day1 (s2l "market") [ex_post bank (-500) [s2l "fp-b1"; s2l "fp-b2"]]].
Definition free_m0 : merger := (merge default_order merger_new free_s0).1.
Definition free_s1 := [ex_tp day1 (s2l "shop?") [ex_post bank (-500) [s2l "fp-y1"]]].
Definition handed_back (r : result (list transaction_postings)) : list (list (gset str)) :=
  match r with Ok un => (λ tp, (λ p, tags (pi_comment p)) <$> tp_posts tp) <$> un | _ => [] end.
Example C17_every_ex : reachable free_m0 ∧ orders_ok mixed ∧ (∀ mp, backwards mp ≡ₚ map_to_list mp) ∧
  length (handed_back (merge_free mixed backwards free_m0 free_s1).2) = 1 ∧
  handed_back (merge_free mixed backwards free_m0 free_s1).2 ≠ handed_back (merge default_order free_m0 free_s1).2 ∧
  handed_back (merge_free mixed backwards free_m0 free_s1).2 ≠ handed_back (merge reverse_order free_m0 free_s1).2.
Proof.
  refine (conj (reach_merge merger_new default_order free_s0 reach_new default_order_ok) (conj mixed_ok (conj backwards_ok (conj _ (conj _ _))))); by_compute.
Qed.

(** C91 for the whole command, each iteration with an order of its own. *)
Theorem C91_every_iteration E os ds ho inputs um output w es r es' r' :
  orders_ok os → dests_ok ds → hash_order_ok ho → (∀ f, um = Some f → writable E f) → writable E output →
  merge_cmd_free E os ds inputs um output w = (es, r) → merge_cmd E ho inputs um output w = (es', r') →
  let w1 := steps w es in let w2 := steps w es' in
  (* both succeed: the files are the same, except what is handed back *)
  (r = Ok tt ∧ r' = Ok tt ∧
   (∀ p, um ≠ Some (Path p) → w_files w1 !! p = w_files w2 !! p) ∧
   (output = Stdio → um ≠ Some Stdio → w_stdout w1 = w_stdout w2) ∧
   (* that differs in candidate tags at most *)
   ∃ un un', Forall2 equal_but_candidates un un' ∧
     ∀ f, um = Some f → f ≠ output →
       match un with
       | [] => ∀ p, f = Path p → same_file w w1 p ∧ same_file w w2 p
       | _ => holds w w1 f (e_print E (into_ledger ho un)) ∧ holds w w2 f (e_print E (into_ledger ho un'))
       end) ∨
  (* both fail, having written nothing *)
  (∃ e e', r = Err e ∧ r' = Err e' ∧ untouched w w1 ∧ untouched w w2).
Proof. exact (merge_cmd_free_order E os ds ho inputs um output w es r es' r'). Qed.
Print Assumptions C91_every_iteration.
Theorem C91_one_order E ho inputs um output w :
  merge_cmd_free E (λ _, ho) (λ _, map_to_list) inputs um output w = merge_cmd E ho inputs um output w.
Proof. exact (merge_cmd_same E ho inputs um output w). Qed.
Print Assumptions C91_one_order.
Example C91_every_ex : orders_ok mixed ∧ dests_ok (λ _, backwards) ∧ (∀ f, writable ex_E f) ∧
  (merge_cmd_free ex_E mixed (λ _, backwards) ex_inputs ex_um (Path (s2l "out")) ex_w).2 = Ok tt ∧ ex_un ≠ [].
Proof. refine (conj mixed_ok (conj (λ _, backwards_ok) (conj ex_writable (conj _ _)))); by_compute. Qed.

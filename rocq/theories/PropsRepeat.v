(** The merge command and the order of hash tables (C91); cells (C92). *)
From stdpp Require Import gmap list.
From Verif Require Import Base Types CommentModel MergeModel CmdModel SpecBase BaseProofs MergeSpec MergeClaims MergeExamples
  CommentClaims CommentExamples CmdClaims CmdExamples CmdOrder MutCellModel MutCellLaws.
Local Open Scope nat_scope.

(** C91 *)
Theorem C91_same_files E ho ho' inputs um output w es r es' r' :
  hash_order_ok ho → hash_order_ok ho' → (∀ f, um = Some f → writable E f) → writable E output →
  merge_cmd E ho inputs um output w = (es, r) → merge_cmd E ho' inputs um output w = (es', r') →
  let w1 := steps w es in let w2 := steps w es' in
  (* both succeed: the files are the same, except what is handed back *)
  (r = Ok tt ∧ r' = Ok tt ∧
   (∀ p, um ≠ Some (Path p) → w_files w1 !! p = w_files w2 !! p) ∧
   (output = Stdio → um ≠ Some Stdio → w_stdout w1 = w_stdout w2) ∧
   (* that differs in candidate tags at most *)
   ∃ un un', Forall2 equal_but_candidates un un' ∧
     ∀ f, um = Some f → f ≠ output →
       match un with
       | [] => ∀ p, f = Path p → same_file w w1 p ∧ same_file w w2 p
       | _ => holds w w1 f (e_print E (into_ledger ho un)) ∧ holds w w2 f (e_print E (into_ledger ho un'))
       end) ∨
  (* both fail, having written nothing *)
  (∃ e e', r = Err e ∧ r' = Err e' ∧ untouched w w1 ∧ untouched w w2).
Proof. exact (merge_cmd_order E ho ho' inputs um output w es r es' r'). Qed.
Print Assumptions C91_same_files.
Example C91_ex : hash_order_ok default_order ∧ hash_order_ok reverse_order ∧ (∀ f, writable ex_E f) ∧ ex_run.2 = Ok tt ∧ ex_un ≠ [] ∧
  (merge_cmd ex_E reverse_order ex_inputs ex_um (Path (s2l "out")) ex_w).2 = Ok tt ∧
  ho_strs reverse_order _ ({[ s2l "a" := 1; s2l "b" := 2 ]} : gmap str nat) ≠ ho_strs default_order _ {[ s2l "a" := 1; s2l "b" := 2 ]}.
Proof. split_and!; [exact default_order_ok|exact reverse_order_ok|exact ex_writable|by_compute|by_compute|by_compute|by_compute]. Qed.

(** C92 *)
Theorem C92_reads {T} (v w : T) os : mc_as_ref (mc_run v os) = Ok w ↔ becomes v os w.
Proof. exact (cell_reads v w os). Qed.
Print Assumptions C92_reads.
Theorem C92_poisoned {T} (v : T) os : mc_is_poisoned (mc_run v os) = true ↔
  ∃ before f after w, os = before ++ OpMap f :: after ∧ becomes v before w ∧ f w = None.
Proof. exact (cell_poisoned v os). Qed.
Print Assumptions C92_poisoned.
Theorem C92_poisoned_panics {T H} (v : T) os (f : T → option T) g eqb (h : T → H) c :
  mc_is_poisoned (mc_run v os) = true →
  mc_as_ref (mc_run v os) = Panic ∧ mc_into_inner (mc_run v os) = Panic ∧ mc_clone (mc_run v os) = Panic ∧
  mc_hash h (mc_run v os) = Panic ∧ mc_eq eqb (mc_run v os) c = Panic ∧
  mc_map_value f (mc_run v os) = (Poisoned, Panic) ∧ mc_as_mut g (mc_run v os) = (Poisoned, Panic).
Proof. exact (cell_panics v os f g eqb h c). Qed.
Print Assumptions C92_poisoned_panics.
Theorem C92_works {T H} (v w : T) os (f : T → option T) g eqb (h : T → H) (c : mutcell T) x : becomes v os w →
  mc_is_poisoned (mc_run v os) = false ∧ mc_into_inner (mc_run v os) = Ok w ∧ mc_clone (mc_run v os) = Ok (mc_run v os) ∧
  mc_hash h (mc_run v os) = Ok (h w) ∧ (mc_as_ref c = Ok x → mc_eq eqb (mc_run v os) c = Ok (eqb w x)) ∧
  (mc_map_value f (mc_run v os)).2 = (if f w then Ok tt else Panic) ∧ (mc_as_mut g (mc_run v os)).2 = (if (g w).2 then Panic else Ok tt).
Proof. exact (cell_works v w os f g eqb h c x). Qed.
Print Assumptions C92_works.
Example C92_ex : let half n := if Nat.even n then Some (Nat.div2 n) else None in
  becomes 5 [OpMut (λ n, (n + 1, false)); OpMap half] 3 ∧
  mc_is_poisoned (mc_run 5 [OpMut (λ n, (n + 1, true)); OpMap half; OpMap half; OpMut (λ n, (0, false))]) = true.
Proof. cbv zeta. split; [apply becomes_mut; eapply becomes_map; [reflexivity|constructor]|reflexivity]. Qed.

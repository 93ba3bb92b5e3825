(** What holds of cells after any history of updates. *)
From stdpp Require Import list.
From Verif Require Import Base Types MutCellModel.
Local Open Scope nat_scope.

(** The value [v] goes through the updates [os], none of which panics in [map_value],
    and becomes [w]. *)
Inductive becomes {T} : T → list (mc_op T) → T → Prop :=
  | becomes_nil v : becomes v [] v
  | becomes_map v f v' os w : f v = Some v' → becomes v' os w → becomes v (OpMap f :: os) w
  | becomes_mut v g os w : becomes (g v).1 os w → becomes v (OpMut g :: os) w.

Lemma poisoned_stays {T} (os : list (mc_op T)) : foldl mc_do Poisoned os = Poisoned.
Proof. induction os as [|[f|g] os IH]; [done|exact IH|exact IH]. Qed.
Lemma run_becomes {T} (v w : T) os : mc_run v os = Value w ↔ becomes v os w.
Proof.
  unfold mc_run, mc_new. split.
  - revert v. induction os as [|[f|g] os IH]; intros v H; cbn in H.
    + injection H as ->. constructor.
    + destruct (f v) as [v'|] eqn:E; cbn in H; [|by rewrite poisoned_stays in H]. by econstructor; [|apply IH].
    + constructor. by apply IH.
  - induction 1 as [v|v f v' os w E _ IH|v g os w _ IH]; [done| |exact IH]. cbn. by rewrite E.
Qed.
Lemma run_poisoned {T} (v : T) os :
  mc_run v os = Poisoned ↔ ∃ before f after w, os = before ++ OpMap f :: after ∧ becomes v before w ∧ f w = None.
Proof.
  split.
  - unfold mc_run, mc_new. revert v. induction os as [|[f|g] os IH]; intros v H; cbn in H; [done|..].
    + destruct (f v) as [v'|] eqn:E; cbn in H.
      * destruct (IH v' H) as (b & f' & a & w & -> & Hb & Hf). exists (OpMap f :: b), f', a, w. split_and!; [done|by econstructor|done].
      * exists [], f, os, v. split_and!; [done|constructor|done].
    + destruct (IH (g v).1 H) as (b & f' & a & w & -> & Hb & Hf). exists (OpMut g :: b), f', a, w. split_and!; [done|by constructor|done].
  - intros (b & f & a & w & -> & Hb & Hf). unfold mc_run. rewrite foldl_app.
    apply run_becomes in Hb. unfold mc_run in Hb. rewrite Hb. cbn. rewrite Hf. apply poisoned_stays.
Qed.
Lemma cell_reads {T} (v w : T) os : mc_as_ref (mc_run v os) = Ok w ↔ becomes v os w.
Proof. rewrite <- run_becomes. destruct (mc_run v os); cbn; split; congruence. Qed.
Lemma cell_poisoned {T} (v : T) os : mc_is_poisoned (mc_run v os) = true ↔
  ∃ before f after w, os = before ++ OpMap f :: after ∧ becomes v before w ∧ f w = None.
Proof. rewrite <- run_poisoned. by destruct (mc_run v os). Qed.
Lemma cell_panics {T H} (v : T) os (f : T → option T) g eqb (h : T → H) c :
  mc_is_poisoned (mc_run v os) = true →
  mc_as_ref (mc_run v os) = Panic ∧ mc_into_inner (mc_run v os) = Panic ∧ mc_clone (mc_run v os) = Panic ∧
  mc_hash h (mc_run v os) = Panic ∧ mc_eq eqb (mc_run v os) c = Panic ∧
  mc_map_value f (mc_run v os) = (Poisoned, Panic) ∧ mc_as_mut g (mc_run v os) = (Poisoned, Panic).
Proof. by destruct (mc_run v os). Qed.
Lemma cell_works {T H} (v w : T) os (f : T → option T) g eqb (h : T → H) (c : mutcell T) x : becomes v os w →
  mc_is_poisoned (mc_run v os) = false ∧ mc_into_inner (mc_run v os) = Ok w ∧ mc_clone (mc_run v os) = Ok (mc_run v os) ∧
  mc_hash h (mc_run v os) = Ok (h w) ∧ (mc_as_ref c = Ok x → mc_eq eqb (mc_run v os) c = Ok (eqb w x)) ∧
  (mc_map_value f (mc_run v os)).2 = (if f w then Ok tt else Panic) ∧ (mc_as_mut g (mc_run v os)).2 = (if (g w).2 then Panic else Ok tt).
Proof.
  intros ->%run_becomes. cbn. split_and!; try done; [|by destruct (f w)]. intros Hc. unfold mc_eq. cbn. by rewrite Hc.
Qed.

(** What rules look at (C148).  The vocabulary is in SeenClaims.v. *)
From stdpp Require Import gmap list.
From Verif Require Import Base Types CommentModel MergeModel CmdModel SpecBase BaseProofs CommentExamples MergeExamples
  RulesModel RulesClaims RulesExamples SeenClaims Seen.
Local Open Scope nat_scope.

(** C148: in journals whose transactions have the same descriptions and postings with the
    same accounts and tags, rules do the same: they end with both or with neither, with the
    same error, and give the same descriptions, accounts and tags. *)
Theorem C148_looks X ho T n tps tps' : Forall2 looks_alike tps tps' →
  run_alike (Forall2 looks_alike) (update_transactions X ho T n tps) (update_transactions X ho T n tps').
Proof. exact (c148 X ho T n tps tps'). Qed.
Print Assumptions C148_looks.

(** If also the transactions themselves have the same tags, they do afterwards. *)
Theorem C148_tagged X ho T n tps tps' : Forall2 (λ tp tp', looks_alike tp tp' ∧ tagged_alike tp tp') tps tps' →
  run_alike (Forall2 (λ tp tp', looks_alike tp tp' ∧ tagged_alike tp tp')) (update_transactions X ho T n tps) (update_transactions X ho T n tps').
Proof. exact (c148_tags X ho T n tps tps'). Qed.
Print Assumptions C148_tagged.

(** The journal with other dates, codes, amounts, statuses and comments. *)
Definition sn_post (p : posting_internal) : posting_internal :=
  PI (Posting (p_account (pi_raw p)) Real None None (Some Pending) (Some (s2l "x")))
    (Comment [s2l "y"] (tags (pi_comment p)) (value_tags (pi_comment p))).
Definition sn_tp (tp : transaction_postings) : transaction_postings :=
  TP (TI (Transaction None day2 (Some day1) (Some Cleared) (Some (s2l "7")) (t_description (ti_raw (tp_trn tp))) [])
       (Comment [s2l "z"] (tags (ti_comment (tp_trn tp))) (value_tags (ti_comment (tp_trn tp))))) (sn_post <$> tp_posts tp).
Lemma sn_alike l : Forall2 (λ tp tp', looks_alike tp tp' ∧ tagged_alike tp tp') l (sn_tp <$> l).
Proof.
  apply Forall2_fmap_r, Forall_Forall2_diag, Forall_forall. intros tp _. split; [|done]. split; [done|]. cbn.
  apply Forall2_fmap_r, Forall_Forall2_diag, Forall_forall. intros p _. done.
Qed.
Example C148_ex : Forall2 looks_alike ex_s0 (sn_tp <$> ex_s0) ∧
  Forall2 (λ tp tp', looks_alike tp tp' ∧ tagged_alike tp tp') ex_s0 (sn_tp <$> ex_s0) ∧
  option_map (rmap (map rx_shape)) (update_transactions rx_X default_order rx_T 2 (sn_tp <$> ex_s0)) = Some (Ok (map rx_shape rx_out)) ∧
  map rx_shape rx_out ≠ map rx_shape ex_s0.
Proof.
  split_and!; [|apply sn_alike|vm_compute; reflexivity|by_compute].
  eapply Forall2_impl; [apply sn_alike|]. by intros tp tp' [H _].
Qed.

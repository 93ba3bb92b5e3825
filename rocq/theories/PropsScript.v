(** C129: scripts of commands can be run again.  Vocabulary ([command], [script],
    [in_order], [tried]) in ScriptClaims.v. *)
From Verif Require Import MergeClaims.
From Verif Require Import Base Types SpecBase BaseProofs CommentModel MergeModel CmdModel FingerprintModel NwCsvModel TzModel PaypalModel OcrModel PdfModel RulesModel
  MergeExamples CommentExamples CmdClaims CmdExamples RulesExamples ImportExamples TestsImport ImporterModel WorkCmdExamples
  RetryClaims ScriptClaims Script.
Local Open Scope nat_scope.

(** However parts of a script were tried before, running it ends as it would have
    without that, and leaves the same content in all files that it writes and in all
    that none of its commands could write. *)
Theorem C129_script E ho cs w w' es : in_order cs → tried cs w w' → script E ho cs w = (es, Ok tt) →
  script E ho cs w' = (es, Ok tt) ∧
  ∀ p, EvCreate p ∈ es ∨ (∀ d, d ∈ cs → ¬ may_write d p) → same_file (steps w es) (steps w' es) p.
Proof. exact (script_retry E ho cs w w' es). Qed.
Print Assumptions C129_script.
(** So nothing is different if it writes every file that it could write. *)
Theorem C129_files E ho cs w w' es : in_order cs → tried cs w w' → script E ho cs w = (es, Ok tt) →
  (∀ d p, d ∈ cs → may_write d p → EvCreate p ∈ es) →
  script E ho cs w' = (es, Ok tt) ∧ w_files (steps w' es) = w_files (steps w es).
Proof. exact (script_files E ho cs w w' es). Qed.
Print Assumptions C129_files.

(** Two imports and a merge; the merge was run alone, then everything, interrupted
    within the second import. *)
Definition sc_imports : list command :=
  [CNationwide wc_V ex_dates ex_opts (Path (s2l "1.csv")) (Path (s2l "a")) false false;
   CNationwide wc_V ex_dates ex_opts (Path (s2l "2.csv")) (Path (s2l "b")) false false].
Definition sc_merge : command := CMerge [Path (s2l "a"); Path (s2l "b")] None (Path (s2l "out")).
Definition sc : list command := sc_imports ++ [sc_merge].
Definition sc_w1 : world := steps wc_w (script wc_env reverse_order [sc_merge] wc_w).1.
Definition sc_w2 : world := steps sc_w1 (take 3 (script wc_env reverse_order sc sc_w1).1).
Lemma sc_writes d p : d ∈ sc → may_write d p → p ∈ [s2l "a"; s2l "b"; s2l "out"].
Proof.
  intros Hd Hw. assert (∃ q, Path q = Path p ∧ q ∈ [s2l "a"; s2l "b"; s2l "out"]) as (q & [= <-] & Hq); [|exact Hq].
  apply elem_of_cons in Hd as [->|Hd]; [exists (s2l "a"); destruct Hw as [ns Hw]; split; [symmetry; exact Hw|left]|].
  apply elem_of_cons in Hd as [->|Hd]; [exists (s2l "b"); destruct Hw as [ns Hw]; split; [symmetry; exact Hw|right; left]|].
  apply elem_of_list_singleton in Hd as ->. exists (s2l "out"). destruct Hw as [[=]|Hw]. split; [exact Hw|right; right; left].
Qed.
Example C129_ex : in_order sc ∧ tried sc wc_w sc_w2 ∧ (script wc_env default_order sc wc_w).2 = Ok tt ∧
  (∀ d p, d ∈ sc → may_write d p → EvCreate p ∈ (script wc_env default_order sc wc_w).1) ∧
  (w_files sc_w2 !! s2l "a", w_files sc_w2 !! s2l "b") = (Some (s2l "A"), Some []) ∧
  w_files (steps wc_w (script wc_env default_order sc wc_w).1) !! s2l "out" = Some (s2l "AB").
Proof.
  refine (conj _ (conj _ (conj _ (conj _ (conj _ _))))); [| |by_compute| |by_compute..].
  - intros a c b f Ec Hf. destruct a as [|c1 a]; cbn [app sc sc_imports] in Ec; [injection Ec as <- <-|].
    { apply elem_of_list_singleton in Hf as ->. eexists. split; [reflexivity|]. right. intros d Hd.
      intros Hw. apply (sc_writes d) in Hw; [|exact Hd]. revert Hw. by_compute. }
    injection Ec as <- Ec. destruct a as [|c2 a]; cbn [app] in Ec; [injection Ec as <- <-|].
    { apply elem_of_list_singleton in Hf as ->. eexists. split; [reflexivity|]. right. intros d Hd.
      intros Hw. apply (sc_writes d) in Hw; [|exact Hd]. revert Hw. by_compute. }
    injection Ec as <- Ec. destruct a as [|c3 a]; cbn [app] in Ec; [injection Ec as <- <-|by destruct a].
    apply elem_of_cons in Hf as [->|Hf]; [|apply elem_of_list_singleton in Hf as ->].
    + eexists. split; [reflexivity|]. left. eexists. split; [left|]. done.
    + eexists. split; [reflexivity|]. left. eexists. split; [right; left|]. done.
  - eapply (tried_again _ _ sc_w1 _ wc_env reverse_order sc); [eapply (tried_again _ _ wc_w _ wc_env reverse_order [sc_merge])| | |].
    + apply tried_not.
    + intros d ->%elem_of_list_singleton. right. right. left.
    + apply surjective_pairing.
    + exists (script wc_env reverse_order [sc_merge] wc_w).1, []. split; [by rewrite app_nil_r|done].
    + done.
    + apply surjective_pairing.
    + exists (take 3 (script wc_env reverse_order sc sc_w1).1), (drop 3 (script wc_env reverse_order sc sc_w1).1). split; [by rewrite take_drop|done].
  - intros d p Hd Hw. apply (sc_writes d p Hd) in Hw as Hq.
    assert (Forall (λ q, EvCreate q ∈ (script wc_env default_order sc wc_w).1) [s2l "a"; s2l "b"; s2l "out"]) as H by by_compute.
    rewrite Forall_forall in H. by apply H.
Qed.

(** Other files can differ: a file of unmerged transactions that an attempt left is not
    removed if there are none the next time.  Here the last command was run alone,
    with the old content of "b". *)
Definition st_l : ledger := match (merge_inputs (ex_env ex_c0) default_order merger_new [] [Path (s2l "a")] ex_w).2 with
  | Ok (m, _) => match build default_order m with Ok ts => into_ledger default_order (strip_sources ts) | _ => [] end
  | _ => []
  end.
Definition st_E : env := ex_env (CmdExamples.ex_c1 ++ [(s2l "S", st_l)]).
Definition st_last : command := CMerge [Path (s2l "a"); Path (s2l "b")] ex_um (Path (s2l "out")).
Definition st : list command := [CMerge [Path (s2l "a")] None (Path (s2l "b")); st_last].
Definition st_w : world := steps ex_w (script st_E default_order [st_last] ex_w).1.
Theorem C129_unmerged_stays : ∃ E cs w w' es p, in_order cs ∧ tried cs w w' ∧ script E default_order cs w = (es, Ok tt) ∧
  w_files (steps w es) !! p = None ∧ w_files (steps w' es) !! p = Some (s2l "UN").
Proof.
  exists st_E, st, ex_w, st_w, (script st_E default_order st ex_w).1, (s2l "un").
  refine (conj _ (conj _ (conj _ (conj _ _)))); [| | |by_compute..].
  - intros a c b f Ec Hf. destruct a as [|c1 a]; cbn [app st] in Ec; [injection Ec as <- <-|].
    + apply elem_of_list_singleton in Hf as ->. eexists. split; [reflexivity|]. right. intros d Hd Hw.
      apply elem_of_cons in Hd as [->|Hd]; [destruct Hw as [[=]|[=]]|]. apply elem_of_list_singleton in Hd as ->. destruct Hw as [[=]|[=]].
    + injection Ec as <- Ec. destruct a as [|c2 a]; cbn [app] in Ec; [injection Ec as <- <-|by destruct a].
      apply elem_of_cons in Hf as [->|Hf]; [|apply elem_of_list_singleton in Hf as ->].
      * eexists. split; [reflexivity|]. right. intros d Hd Hw.
        apply elem_of_cons in Hd as [->|Hd]; [destruct Hw as [[=]|[=]]|]. apply elem_of_list_singleton in Hd as ->. destruct Hw as [[=]|[=]].
      * eexists. split; [reflexivity|]. left. eexists. split; [left|done].
  - eapply (tried_again _ _ ex_w _ st_E default_order [st_last]).
    + apply tried_not.
    + intros d ->%elem_of_list_singleton. right. left.
    + apply surjective_pairing.
    + exists (script st_E default_order [st_last] ex_w).1, []. split; [by rewrite app_nil_r|done].
  - rewrite (surjective_pairing (script _ _ _ _)) at 1. apply (f_equal (pair _)). by_compute.
Qed.
Print Assumptions C129_unmerged_stays.

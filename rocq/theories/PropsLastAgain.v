(** C138: merging the last inputs again changes nothing. *)
From Verif Require Import MergeClaims.
From Verif Require Import Base Types SpecBase BaseProofs CommentModel MergeModel CmdModel
  CommentClaims CmdClaims CommentExamples MergeExamples CmdExamples HeaderClaims PartsClaims ResolveClaims MergeProofs PropsMergeProofs ReRun ReRunExamples LastAgain.
From Coq Require Import Lia.
Local Open Scope nat_scope.

(** C138: sets of transactions are merged one after the other.  Merging any number of
    the last ones again, in the same order, leaves the merger as it was. *)
Theorem C138_last_again A B m hos :
  clean_run merger_new (A ++ B) m → length hos = length B → Forall hash_order_ok hos →
  clean_run m (zip hos B.*2) m.
Proof. exact (c138_state A B m hos). Qed.
Print Assumptions C138_last_again.

(** The same when the journal that was built takes the place of the earlier ones. *)
Theorem C138_last_on_built A B m ho out :
  clean_run merger_new (A ++ B) m → hash_order_ok ho → build ho m = Ok out →
  ∀ hos, length hos = S (length B) → Forall hash_order_ok hos →
  ∃ m', clean_run merger_new (zip hos (out :: B.*2)) m' ∧ ∀ ho', hash_order_ok ho' → build ho' m' = Ok out.
Proof. exact (c138_built A B m ho out). Qed.
Print Assumptions C138_last_on_built.

(** The command: journals are merged, with no file for unmerged transactions, and the
    result is written to a file [o], perhaps one of the earlier inputs [a].  Merging
    that file with the last inputs [b] writes the same text again. *)
Theorem C138_command E ho ho2 a b o o2 um2 w tpss w0 es es2 r2 :
  hash_order_ok ho → hash_order_ok ho2 →
  (* the first run *)
  journals E w (Path <$> (a ++ b)) tpss w0 → o ∉ b →
  merge_cmd E ho (Path <$> (a ++ b)) None (Path o) w = (es, Ok tt) →
  (* printer and parser agree on the text written, and comments can be written *)
  (∀ m out, merges ho merger_new tpss [] m → build ho m = Ok out →
     e_parse E (e_print E (into_ledger ho out)) = Some (into_ledger ho out) ∧ ∀ tp, tp ∈ out → comments_writable tp) →
  (* nothing goes wrong with the files *)
  f_read E (Path o) = false → writable E (Path o) → writable E o2 → (∀ f, um2 = Some f → writable E f) →
  (* the second run *)
  merge_cmd E ho2 (Path <$> (o :: b)) um2 o2 (steps w es) = (es2, r2) →
  r2 = Ok tt ∧ ∃ text, w_files (steps w es) !! o = Some text ∧ holds (steps w es) (steps (steps w es) es2) o2 text.
Proof. exact (c138_command E ho ho2 a b o o2 um2 w tpss w0 es es2 r2). Qed.
Print Assumptions C138_command.

(** In place: statements are merged into a journal that is overwritten with the
    result.  The same command once more succeeds and leaves the same file. *)
Theorem C138_in_place E ho ho2 j statements w tpss w0 es es2 r2 :
  hash_order_ok ho → hash_order_ok ho2 →
  journals E w (Path <$> (j :: statements)) tpss w0 → j ∉ statements →
  merge_cmd E ho (Path <$> (j :: statements)) None (Path j) w = (es, Ok tt) →
  (∀ m out, merges ho merger_new tpss [] m → build ho m = Ok out →
     e_parse E (e_print E (into_ledger ho out)) = Some (into_ledger ho out) ∧ ∀ tp, tp ∈ out → comments_writable tp) →
  f_read E (Path j) = false → writable E (Path j) →
  merge_cmd E ho2 (Path <$> (j :: statements)) None (Path j) (steps w es) = (es2, r2) →
  r2 = Ok tt ∧ is_Some (w_files (steps w es) !! j) ∧
  w_files (steps (steps w es) es2) !! j = w_files (steps w es) !! j.
Proof. exact (c138_in_place E ho ho2 j statements w tpss w0 es es2 r2). Qed.
Print Assumptions C138_in_place.

(** Two sets, of which the second is merged again; the first run did change the
    journal of the first. *)
Example C138_ex : clean_run merger_new ([(default_order, ex_s0)] ++ [(default_order, ex_s1)]) (merge default_order ex_m0 ex_s1).1 ∧
  build default_order (merge default_order ex_m0 ex_s1).1 ≠ build default_order ex_m0.
Proof.
  split; [|by_compute].
  econstructor; [exact default_order_ok|apply merge_eq; by_compute|]. change (merge _ _ ex_s0).1 with ex_m0.
  econstructor; [exact default_order_ok|apply merge_eq; by_compute|]. constructor.
Qed.
(** The journal "a" is overwritten with what "b" adds to it. *)
Example C138_command_ex :
  let run := merge_cmd rr_E default_order (Path <$> rr_paths) None (Path (s2l "a")) ex_w in
  journals rr_E ex_w (Path <$> (s2l "a" :: [s2l "b"])) rr_sets ex_w ∧ s2l "a" ∉ [s2l "b"] ∧ run = (run.1, Ok tt) ∧
  (∀ m out, merges default_order merger_new rr_sets [] m → build default_order m = Ok out →
     e_parse rr_E (e_print rr_E (into_ledger default_order out)) = Some (into_ledger default_order out) ∧
     ∀ tp, tp ∈ out → comments_writable tp) ∧
  (∀ f, writable rr_E f) ∧ w_files (steps ex_w run.1) !! s2l "a" = Some (s2l "OUT") ∧ w_files ex_w !! s2l "a" = Some (s2l "J1").
Proof.
  cbv zeta. split_and!.
  - exact rr_journals.
  - by_compute.
  - rewrite (surjective_pairing (merge_cmd _ _ _ _ _ _)) at 1. apply (f_equal (pair _)). by_compute.
  - intros m out Hm Hb. rewrite (rr_merges _ _ Hm) in Hb.
    assert (out = rr_out) as -> by (unfold rr_out; by rewrite Hb). split; [by_compute|]. apply writable_compute. by_compute.
  - by intros [].
  - by_compute.
  - by_compute.
Qed.
(** It must be the last ones: an earlier set merged again can change the journal
    back, here the value of a tag that a later set has changed. *)
Definition again_tp (v : str) : transaction_postings := ex_tp day1 (s2l "shop")
  [PI (pi_raw (ex_post bank (-500) [])) (Comment [] {[ s2l "fp-a1" ]} {[ s2l "note" := v ]})].
Theorem C138_last_needed : ∃ s1 s2 out out',
  let o := default_order in
  Forall (λ r, r = Ok []) (outcomes merger_new [(o, s1); (o, s2); (o, s1)]) ∧
  build o (after merger_new [(o, s1); (o, s2)]) = Ok out ∧
  build o (after merger_new [(o, s1); (o, s2); (o, s1)]) = Ok out' ∧ out' ≠ out.
Proof.
  exists [again_tp (s2l "one")], [again_tp (s2l "two")]. eexists _, _. cbv zeta.
  split; [repeat constructor; by_compute|]. split; [vm_compute; reflexivity|]. split; [vm_compute; reflexivity|by_compute].
Qed.
Print Assumptions C138_last_needed.

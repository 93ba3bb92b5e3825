(** C106: the merge command run again on its own output and all its inputs. *)
From Verif Require Import MergeClaims.
From Verif Require Import Base Types SpecBase BaseProofs CommentModel MergeModel CmdModel
  CommentClaims CmdClaims CommentExamples MergeExamples CmdExamples HeaderClaims ReRun ReRunExamples.
From Coq Require Import Lia.
Local Open Scope nat_scope.

(** C106: journals are merged, with no file for unmerged transactions, and the result
    is written to a file.  Merging that file with all the journals it came from
    writes the same text again. *)
Theorem C106_remerge_with_inputs E ho ho2 paths o o2 um2 w tpss w0 es es2 r2 :
  hash_order_ok ho → hash_order_ok ho2 →
  (* the first run *)
  journals E w (Path <$> paths) tpss w0 → o ∉ paths →
  merge_cmd E ho (Path <$> paths) None (Path o) w = (es, Ok tt) →
  (* printer and parser agree on the text written, and comments can be written *)
  (∀ m out, merges ho merger_new tpss [] m → build ho m = Ok out →
     e_parse E (e_print E (into_ledger ho out)) = Some (into_ledger ho out) ∧ ∀ tp, tp ∈ out → comments_writable tp) →
  (* nothing goes wrong with the files *)
  f_read E (Path o) = false → writable E (Path o) → writable E o2 → (∀ f, um2 = Some f → writable E f) →
  (* the second run *)
  merge_cmd E ho2 (Path o :: (Path <$> paths)) um2 o2 (steps w es) = (es2, r2) →
  r2 = Ok tt ∧ ∃ text, w_files (steps w es) !! o = Some text ∧ holds (steps w es) (steps (steps w es) es2) o2 text.
Proof. exact (c106 E ho ho2 paths o o2 um2 w tpss w0 es es2 r2). Qed.
Print Assumptions C106_remerge_with_inputs.

Example C106_ex :
  journals rr_E ex_w (Path <$> rr_paths) rr_sets ex_w ∧ s2l "out" ∉ rr_paths ∧ rr_run = (rr_run.1, Ok tt) ∧
  (∀ m out, merges default_order merger_new rr_sets [] m → build default_order m = Ok out →
     e_parse rr_E (e_print rr_E (into_ledger default_order out)) = Some (into_ledger default_order out) ∧
     ∀ tp, tp ∈ out → comments_writable tp) ∧
  (∀ f, writable rr_E f) ∧ w_files (steps ex_w rr_run.1) !! s2l "out" = Some (s2l "OUT") ∧
  rr_out ≠ ex_s0 ∧ length (all_posts rr_out) > length (all_posts ex_s0) ∧
  merge_cmd rr_E reverse_order (Path <$> (s2l "out" :: rr_paths)) None Stdio (steps ex_w rr_run.1) =
    ((merge_cmd rr_E reverse_order (Path <$> (s2l "out" :: rr_paths)) None Stdio (steps ex_w rr_run.1)).1, Ok tt).
Proof.
  split_and!.
  - exact rr_journals.
  - by_compute.
  - rewrite (surjective_pairing rr_run) at 1. apply (f_equal (pair _)). by_compute.
  - intros m out Hm Hb. rewrite (rr_merges _ _ Hm) in Hb.
    assert (out = rr_out) as -> by (unfold rr_out; by rewrite Hb). split; [by_compute|]. apply writable_compute. by_compute.
  - by intros [].
  - by_compute.
  - by_compute.
  - vm_compute. lia.
  - rewrite (surjective_pairing (merge_cmd _ reverse_order _ _ _ _)) at 1. apply (f_equal (pair _)). by_compute.
Qed.

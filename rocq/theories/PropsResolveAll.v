(** Resolving everything that was handed back, at once (C111). *)
From Verif Require Import MergeClaims.
From Verif Require Import Base Types SpecBase BaseProofs CommentModel MergeModel CmdModel CommentClaims CmdClaims HeaderClaims
  CommentExamples MergeExamples CmdExamples MergeSpec ResolveClaims PartsClaims PiecesClaims ResolveAllClaims ResolveAll ResolveAllCmd
  ResolveExamples ReRunExamples ResolveAllExamples.
Local Open Scope nat_scope.

(** C111: after any merges that handed back [un], the user resolves all of it as
    README.md says. Merging that, in any order and in any number of pieces, puts every
    posting where the user said, and hands nothing back. After that the original
    transactions may come again, and change nothing. *)
Theorem C111_all m0 ho ss un m j trs gs ho' :
  reachable m0 → hash_order_ok ho → merges ho m0 ss un m → represents m j → hash_order_ok ho' →
  resolvable j un trs → mjoin gs ≡ₚ trs →
  ∃ m3 j3, merges ho' m gs [] m3 ∧ represents m3 j3 ∧ all_resolved j un trs j3 ∧
    (∀ origs ho'', hash_order_ok ho'' → fps_distinct (all_posts origs) → (∀ o p, o ∈ origs → p ∈ tp_posts o → mergeable p) →
       (∀ o, o ∈ origs → ∃ tp, tp ∈ un ∧ equal_but_candidates o tp) → merge ho'' m3 origs = (m3, Ok [])).
Proof. exact (resolve_all m0 ho ss un m j trs gs ho'). Qed.
Print Assumptions C111_all.

(** The same with files: one run writes the journal to [o] and what it hands back to
    [u]; the user edits [u]; a second run reads [o] and [u]. It succeeds also without a
    file for unmerged transactions, and writes the journal with all of [u] merged. *)
Theorem C111_command E hoA hoB a u o umB o2 w ta un m j esA w2 text l trs esB rB :
  hash_order_ok hoA → hash_order_ok hoB → journals E w (Path <$> a) ta w → steady ta →
  merges hoA merger_new ta un m → represents m j → un ≠ [] →
  (* nothing goes wrong with the files *)
  f_read E (Path o) = false → f_read E (Path u) = false → (∀ f, writable E f) → o ≠ u →
  (* printer and parser agree on the text of the first run, and comments can be written *)
  (∀ out, build hoA m = Ok out →
     e_parse E (e_print E (into_ledger hoA out)) = Some (into_ledger hoA out) ∧ ∀ tp, tp ∈ out → comments_writable tp) →
  merge_cmd E hoA (Path <$> a) (Some (Path u)) (Path o) w = (esA, Ok tt) →
  (* the user changes [u] and not [o]; source tags may stay *)
  same_file (steps w esA) w2 o → w_files w2 !! u = Some text → e_parse E text = Some l → supported l →
  Forall2 unsourced (transaction_postings_of <$> ledger_trns l) trs → resolvable j un trs →
  merge_cmd E hoB [Path o; Path u] umB (Path o2) w2 = (esB, rB) →
  (∃ un', Forall2 unsourced un' un ∧ w_files (steps w esA) !! u = Some (e_print E (into_ledger hoA un'))) ∧
  rB = Ok tt ∧ (∀ p, p ≠ o2 → same_file w2 (steps w2 esB) p) ∧
  ∃ gs m3 j3 out3, mjoin gs ≡ₚ trs ∧ merges hoB m gs [] m3 ∧ represents m3 j3 ∧ all_resolved j un trs j3 ∧
    build hoB m3 = Ok out3 ∧ w_files (steps w2 esB) !! o2 = Some (e_print E (into_ledger hoB out3)).
Proof. exact (c111_cmd E hoA hoB a u o umB o2 w ta un m j esA w2 text l trs esB rB). Qed.
Print Assumptions C111_command.

(** Two transactions are handed back; each could belong to either of two payments. *)
Example C111_ex : reachable merger_new ∧ merges default_order merger_new [ex_s0; ra_in] ra_un ra_m ∧ represents ra_m ra_j ∧
  resolvable ra_j ra_un ra_trs ∧ mjoin [[ra_ed1]; [rs_edited]] ≡ₚ ra_trs ∧ length ra_un = 2 ∧
  fps_distinct (all_posts ra_origs) ∧ (∀ p, p ∈ all_posts ra_origs → mergeable p) ∧
  (∀ o, o ∈ ra_origs → ∃ tp, tp ∈ ra_un ∧ equal_but_candidates o tp) ∧
  (* before the edit they are handed back again *)
  (merge default_order ra_m ra_origs).2 = Ok ra_un.
Proof.
  split_and!; [constructor|exact ra_merges|exact ra_represents|exact ra_resolvable| |done|apply ra_origs_ok..|by_compute].
  change (mjoin [[ra_ed1]; [rs_edited]]) with [ra_ed1; rs_edited]. unfold ra_trs. generalize ra_ed1, rs_edited. intros x y. constructor.
Qed.
Example C111_command_ex :
  journals ra_E ex_w (Path <$> rr_paths) [ex_s0; ra_in] ex_w ∧ steady [ex_s0; ra_in] ∧ ra_un ≠ [] ∧ (∀ f, writable ra_E f) ∧
  (∀ out, build default_order ra_m = Ok out →
     e_parse ra_E (e_print ra_E (into_ledger default_order out)) = Some (into_ledger default_order out) ∧
     ∀ tp, tp ∈ out → comments_writable tp) ∧
  same_file (steps ex_w ra_run1.1) ra_w2 (s2l "mid") ∧ w_files ra_w2 !! s2l "un" = Some (s2l "EDITED") ∧
  e_parse ra_E (s2l "EDITED") = Some ra_led ∧ supported ra_led ∧
  Forall2 unsourced (transaction_postings_of <$> ledger_trns ra_led) ra_trs ∧
  ra_run1.2 = Ok tt ∧ ra_run2.2 = Ok tt ∧
  w_files (steps ex_w ra_run1.1) !! s2l "mid" = Some (s2l "MID") ∧
  w_files (steps ex_w ra_run1.1) !! s2l "un" = Some (s2l "UN") ∧
  w_files (steps ra_w2 ra_run2.1) !! s2l "out" = Some (s2l "OUT").
Proof.
  destruct ra_files as (F1 & F2 & F3 & F4 & F5).
  split_and!.
  - exact ra_journals.
  - apply steady_compute. vm_compute. reflexivity.
  - done.
  - exact ra_writable.
  - intros out Hb. assert (out = ra_mid) as -> by (unfold ra_mid; by rewrite Hb). split; [by_compute|]. apply writable_compute. by_compute.
  - unfold same_file, ra_w2. cbn [w_files]. by apply lookup_insert_ne.
  - unfold ra_w2. cbn [w_files]. apply lookup_insert.
  - vm_compute. reflexivity.
  - unfold supported. by_compute.
  - exact ra_text.
  - exact F1.
  - exact F2.
  - exact F3.
  - exact F4.
  - exact F5.
Qed.

(** The originals may not come before the edited transactions: they are handed back again. *)
Example C111_order : (merge default_order ra_m (ra_origs ++ [])).2 = Ok ra_un ∧
  (merge default_order (merge default_order ra_m ra_origs).1 ra_trs).2 = Ok [] ∧
  (merge default_order (merge default_order ra_m ra_trs).1 ra_origs).2 = Ok [].
Proof. split_and!; by_compute. Qed.

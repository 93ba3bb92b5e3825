(** C25-C30, C60, C61, C67, C68, C72: the commands.  The vocabulary is in
    CmdClaims.v.  [steps w es] is the world after the events [es]; a crash can
    leave any [w'] with [crash_world w es w']. *)
From Verif Require Import Base Types CommentModel MergeModel CmdModel SpecBase BaseProofs MergeSpec MergeClaims MergeExamples
  CommentClaims CommentExamples CmdClaims CmdProofs CmdMerge CmdMerge2 CmdIdem CmdFp CmdExamples.
Local Open Scope nat_scope.

(** C25 *)
Theorem C25_failure E ho inputs um output w es r :
  hash_order_ok ho → merge_cmd E ho inputs um output w = (es, r) →
  (∀ un m, ¬ merge_complete E ho w inputs um un m) →
  (∃ e, r = Err e) ∧ ∀ w', crash_world w es w' → untouched w w'.
Proof. exact (c25_failure E ho inputs um output w es r). Qed.
Print Assumptions C25_failure.
(** Cases in which the merge is not complete: a file that is not there, one that
    does not parse, and no place for what is handed back. *)
Example C25_failure_ex :
  (∀ un m, ¬ merge_complete ex_E default_order ex_w [Path (s2l "a"); Path (s2l "nowhere")] ex_um un m) ∧
  (∀ un m, ¬ merge_complete ex_E default_order ex_w [Path (s2l "a"); Path (s2l "odd")] ex_um un m) ∧
  (∀ un m, ¬ merge_complete ex_E default_order ex_w ex_inputs None un m).
Proof.
  split_and!.
  - apply (incomplete_of_run _ _ _ _ (Path (s2l "out")) _ EIo default_order_ok ex_writable). by_compute.
  - apply (incomplete_of_run _ _ _ _ (Path (s2l "out")) _ EParse default_order_ok ex_writable). by_compute.
  - apply (incomplete_of_run _ _ _ _ (Path (s2l "out")) _ EUnmergedNoFile default_order_ok ex_writable). by_compute.
Qed.

Theorem C25_success E ho inputs um output w un m :
  hash_order_ok ho → merge_complete E ho w inputs um un m →
  (∀ f, um = Some f → writable E f) → writable E output →
  ∃ es, merge_cmd E ho inputs um output w = (es, Ok tt).
Proof. exact (c25_success E ho inputs um output w un m). Qed.
Print Assumptions C25_success.
Example C25_success_ex : (∃ un m, merge_complete ex_E default_order ex_w ex_inputs ex_um un m) ∧ (∀ f, writable ex_E f).
Proof. split; [exact ex_complete|exact ex_writable]. Qed.

(** C26 *)
Theorem C26_sources E ho f w es sets :
  hash_order_ok ho → read_sources E ho f w = (es, Ok sets) →
  ∃ l, reads E w f l (steps w es) ∧ supported l ∧
    let tps := transaction_postings_of <$> ledger_trns l in
    by_source (filespec_display E f) tps sets ∧
    mjoin sets ≡ₚ sourced (filespec_display E f) <$> tps.
Proof. exact (c26 E ho f w es sets). Qed.
Print Assumptions C26_sources.
Theorem C26_reads E ho f w l w' :
  hash_order_ok ho → reads E w f l w' → supported l → ∃ es sets, read_sources E ho f w = (es, Ok sets).
Proof. exact (c26_reads E ho f w l w'). Qed.
Print Assumptions C26_reads.
Example C26_ex : let t s n := TP (TI (ti_raw (tp_trn ex_t1)) (Comment [s2l n] ∅ {[ s2l "source-file" := s2l s ]})) [] in
  let l := into_ledger default_order [ex_t1; t "z" "1"; t "b" "2"; ex_t2; t "z" "3"] in
  rmap (map (map (λ tp, (source_tag tp, lines (ti_comment (tp_trn tp)), length (tp_posts tp)))))
    (read_sources (ex_env [(s2l "J", l)]) default_order (Path (s2l "f")) (World {[ s2l "f" := s2l "J" ]} ∅ [] [])).2 =
  Ok [ [(Some (s2l """f"""), [], 2); (Some (s2l """f"""), [], 2)]; [(Some (s2l "b"), [s2l "2"], 0)];
       [(Some (s2l "z"), [s2l "1"], 0); (Some (s2l "z"), [s2l "3"], 0)] ].
Proof. cbv zeta. by_compute. Qed.

(** C27: what a successful run has written. *)
Theorem C27_written E ho inputs um output w es :
  hash_order_ok ho → merge_cmd E ho inputs um output w = (es, Ok tt) →
  ∃ un m out out', merge_complete E ho w inputs um un m ∧ build ho m = Ok out ∧
    (* the output: the merged journal without source tags *)
    Forall2 unsourced out out' ∧
    let w' := steps w es in
    (um ≠ Some Stdio ∨ un = [] ∨ output ≠ Stdio →
       holds w w' output (e_print E (into_ledger ho out'))) ∧
    (* the unmerged file, if there is something to put in it *)
    (∀ f, um = Some f → un ≠ [] → f ≠ output → holds w w' f (e_print E (into_ledger ho un))) ∧
    (* nothing else *)
    (∀ p, Path p ≠ output → (um = Some (Path p) → un = []) → same_file w w' p).
Proof. exact (c25_written E ho inputs um output w es). Qed.
Print Assumptions C27_written.
Theorem C27_unmerged E ho w inputs um un m tp :
  hash_order_ok ho → merge_complete E ho w inputs um un m → tp ∈ un → is_Some (source_tag tp).
Proof. exact (c27_unmerged E ho w inputs um un m tp). Qed.
Print Assumptions C27_unmerged.
Example C27_ex : ex_run = (ex_run.1, Ok tt) ∧
  (w_files ex_w1 !! s2l "out", w_files ex_w1 !! s2l "un") = (Some (s2l "OUT"), Some (s2l "UN")) ∧
  source_tag <$> ex_built = [Some (s2l """a"""); Some (s2l """a"""); Some (s2l """a"""); Some (s2l """b""")] ∧
  source_tag <$> ex_un = [Some (s2l """b""")] ∧
  ex_parse ex_c1 (s2l "OUT") = Some (into_ledger default_order (strip_sources ex_built)) ∧
  ex_parse ex_c1 (s2l "UN") = Some (into_ledger default_order ex_un).
Proof. split_and!; [exact ex_run_ok|exact ex_files|by_compute|by_compute|by_compute|by_compute]. Qed.

(** C28 *)
Theorem C28_other_files E ho inputs um output w es r w' p :
  hash_order_ok ho → merge_cmd E ho inputs um output w = (es, r) → crash_world w es w' →
  output ≠ Path p → um ≠ Some (Path p) → same_file w w' p ∧ w_dirs w' = w_dirs w.
Proof. exact (c28_others E ho inputs um output w es r w' p). Qed.
Print Assumptions C28_other_files.
Theorem C28_unmerged_first E ho inputs fu output w es r w' un m :
  hash_order_ok ho → merge_cmd E ho inputs (Some fu) output w = (es, r) → crash_world w es w' →
  merge_complete E ho w inputs (Some fu) un m → un ≠ [] → fu ≠ output →
  output_touched w w' output → holds w w' fu (e_print E (into_ledger ho un)).
Proof. exact (c28_order E ho inputs fu output w es r w' un m). Qed.
Print Assumptions C28_unmerged_first.
(** What is in the two files at a crash point. *)
Theorem C28_files E ho inputs um output w es r w' p :
  hash_order_ok ho → merge_cmd E ho inputs um output w = (es, r) → crash_world w es w' →
  same_file w w' p ∨
  (∃ un m out out' part rest, merge_complete E ho w inputs um un m ∧ build ho m = Ok out ∧ Forall2 unsourced out out' ∧
     w_files w' !! p = Some part ∧
     ((um = Some (Path p) ∧ un ≠ [] ∧ e_print E (into_ledger ho un) = part ++ rest) ∨
      (output = Path p ∧ e_print E (into_ledger ho out') = part ++ rest))).
Proof. exact (c28_partial_files E ho inputs um output w es r w' p). Qed.
Print Assumptions C28_files.
(** The run writes the unmerged file, then empties the output and writes it. *)
Example C28_ex : ex_un ≠ [] ∧
  ex_run.1 = [EvCreate (s2l "un"); EvPut (s2l "un") 85; EvPut (s2l "un") 78;
              EvCreate (s2l "out"); EvPut (s2l "out") 79; EvPut (s2l "out") 85; EvPut (s2l "out") 84]%N ∧
  merge_complete ex_E default_order ex_w ex_inputs ex_um ex_un ex_merged.1.
Proof. split_and!; [by_compute|by_compute|exact ex_merged_complete]. Qed.

(** C29: for every journal that can be read and rewritten there is a crash point
    at which it is empty. *)
Theorem C29_fmt_refuted E p w es r text l :
  f_read E (Path p) = false → w_files w !! p = Some text → e_parse E text = Some l → writable E (Path p) →
  fmt_cmd E [Path p] w = (es, r) →
  ∃ w', crash_world w es w' ∧ w_files w' !! p = Some [].
Proof. exact (c29_fmt E p w es r text l). Qed.
Print Assumptions C29_fmt_refuted.
Theorem C29_fpgen_refuted E ho gen n p w es r text l :
  f_read E (Path p) = false → w_files w !! p = Some text → e_parse E text = Some l → supported l → writable E (Path p) →
  fpgen_cmd E ho gen n [Path p] w = (es, r) →
  ∃ w', crash_world w es w' ∧ w_files w' !! p = Some [].
Proof. exact (c29_fpgen E ho gen n p w es r text l). Qed.
Print Assumptions C29_fpgen_refuted.
Example C29_ex : ∃ es w', fmt_cmd ex_E [Path (s2l "a")] ex_w = (es, Ok tt) ∧ crash_world ex_w es w' ∧
  w_files ex_w !! s2l "a" = Some (s2l "J1") ∧ w_files (steps ex_w es) !! s2l "a" = Some (s2l "J1") ∧
  w_files w' !! s2l "a" = Some [].
Proof.
  exists [EvCreate (s2l "a"); EvPut (s2l "a") 74; EvPut (s2l "a") 49]%N, (steps ex_w [EvCreate (s2l "a")]).
  split_and!; [by_compute| |by_compute|by_compute|by_compute]. by exists [EvCreate (s2l "a")], [EvPut (s2l "a") 74; EvPut (s2l "a") 49]%N.
Qed.

(** C72: what does hold at crash points of the commands that rewrite in place. *)
Theorem C72_fmt E js w es r w' :
  NoDup js → fmt_cmd E js w = (es, r) → crash_world w es w' → rewriting (formatted E) w w' js.
Proof. exact (c72_fmt E js w es r w'). Qed.
Print Assumptions C72_fmt.
Theorem C72_fmt_done E js w es :
  NoDup js → fmt_cmd E js w = (es, Ok tt) → rewritten (formatted E) w (steps w es) js.
Proof. exact (c72_fmt_done E js w es). Qed.
Print Assumptions C72_fmt_done.
Theorem C72_fpgen E ho gen n js w es r w' :
  hash_order_ok ho → NoDup js → fpgen_cmd E ho gen n js w = (es, r) → crash_world w es w' →
  rewriting (fingerprinted_text E ho gen) w w' js.
Proof. exact (c72_fpgen E ho gen n js w es r w'). Qed.
Print Assumptions C72_fpgen.
Theorem C72_fpgen_done E ho gen n js w es :
  hash_order_ok ho → NoDup js → fpgen_cmd E ho gen n js w = (es, Ok tt) →
  rewritten (fingerprinted_text E ho gen) w (steps w es) js.
Proof. exact (c72_fpgen_done E ho gen n js w es). Qed.
Print Assumptions C72_fpgen_done.
(** They succeed when all journals can be read, parsed and written. *)
Theorem C72_fmt_succeeds E ps w :
  NoDup ps → (∀ p, p ∈ ps → ∃ text l, w_files w !! p = Some text ∧ e_parse E text = Some l) →
  (∀ p, p ∈ ps → f_read E (Path p) = false ∧ writable E (Path p)) →
  ∃ es, fmt_cmd E (Path <$> ps) w = (es, Ok tt).
Proof. exact (c72_fmt_succeeds E ps w). Qed.
Print Assumptions C72_fmt_succeeds.
Theorem C72_fpgen_succeeds E ho gen n ps w :
  NoDup ps → (∀ p, p ∈ ps → ∃ text l, w_files w !! p = Some text ∧ e_parse E text = Some l ∧ supported l) →
  (∀ p, p ∈ ps → f_read E (Path p) = false ∧ writable E (Path p)) →
  ∃ es, fpgen_cmd E ho gen n (Path <$> ps) w = (es, Ok tt).
Proof. exact (c72_fpgen_succeeds E ho gen n ps w). Qed.
Print Assumptions C72_fpgen_succeeds.
Example C72_ex : NoDup ex_inputs ∧ ∃ es es', fmt_cmd ex_E ex_inputs ex_w = (es, Ok tt) ∧
  fpgen_cmd ex_E default_order (λ _, s2l "id") 0 ex_inputs ex_w = (es', Ok tt).
Proof. split; [by_compute|]. eexists _, _. split; vm_compute; reflexivity. Qed.

(** C30 *)
Theorem C30_idempotent E ho ho2 inputs um o w es w1 text E2 um2 o2 es2 r2 :
  hash_order_ok ho → hash_order_ok ho2 →
  (* a run has written [text] to the file [o] *)
  merge_cmd E ho inputs um (Path o) w = (es, Ok tt) → w1 = steps w es → w_files w1 !! o = Some text →
  (* printing and parsing keep the journal and its comments *)
  e_print E2 = e_print E →
  (∀ un m out out', merge_complete E ho w inputs um un m → build ho m = Ok out → Forall2 unsourced out out' →
     (let l := into_ledger ho out' in e_parse E2 (e_print E l) = Some l) ∧ ∀ tp, tp ∈ out' → comments_writable tp) →
  (* in the second run, with [o] as the only input, files can be read and written *)
  f_read E2 (Path o) = false → writable E2 o2 →
  merge_cmd E2 ho2 [Path o] um2 o2 w1 = (es2, r2) →
  r2 = Ok tt ∧ holds w1 (steps w1 es2) o2 text.
Proof. exact (c30 E ho ho2 inputs um o w es w1 text E2 um2 o2 es2 r2). Qed.
Print Assumptions C30_idempotent.
Example C30_ex : ex_run = (ex_run.1, Ok tt) ∧
  (w_files ex_w1 !! s2l "out", w_files ex_w1 !! s2l "un") = (Some (s2l "OUT"), Some (s2l "UN")) ∧
  (∀ un m out out', merge_complete ex_E default_order ex_w ex_inputs ex_um un m → build default_order m = Ok out →
     Forall2 unsourced out out' →
     (let l := into_ledger default_order out' in e_parse ex_E (e_print ex_E l) = Some l) ∧ ∀ tp, tp ∈ out' → comments_writable tp) ∧
  (merge_cmd ex_E default_order [Path (s2l "out")] None (Path (s2l "out2")) ex_w1).2 = Ok tt.
Proof. split_and!; [exact ex_run_ok|exact ex_files|exact ex_rereadable|by_compute]. Qed.
(** Without writable comments the second run can write another journal: here the
    comment "key:" does not survive being written and read. *)
Theorem C30_comments_needed : ∃ es es2,
  merge_cmd key_E default_order [Path (s2l "in")] None (Path (s2l "out")) key_w = (es, Ok tt) ∧
  merge_cmd key_E default_order [Path (s2l "out")] None (Path (s2l "out")) (steps key_w es) = (es2, Ok tt) ∧
  w_files (steps key_w es) !! s2l "out" = Some (s2l "L1") ∧
  w_files (steps (steps key_w es) es2) !! s2l "out" = Some (s2l "L0") ∧
  ∀ l, l ∈ [key_l0; key_l1] → e_parse key_E (e_print key_E l) = Some l.
Proof. exact key_changes. Qed.
Print Assumptions C30_comments_needed.

(** C60 *)
Theorem C60_added ho gen n tps n' tps' :
  hash_order_ok ho → fpgen_trns ho gen n tps = (n', tps') →
  fingerprints_added gen tps tps' ∧ ∀ p, p ∈ all_posts tps' → ∃ f, has_fp p f.
Proof. exact (c60_added ho gen n tps n' tps'). Qed.
Print Assumptions C60_added.
Theorem C60_again ho ho' gen gen' n n2 tps n' tps' :
  hash_order_ok ho → hash_order_ok ho' → fpgen_trns ho gen n tps = (n', tps') →
  fpgen_trns ho' gen' n2 tps' = (n2, tps').
Proof. exact (c60_twice ho ho' gen gen' n n2 tps n' tps'). Qed.
Print Assumptions C60_again.
Theorem C60_distinct ho gen n tps n' tps' :
  hash_order_ok ho → fpgen_trns ho gen n tps = (n', tps') → fps_distinct (all_posts tps) →
  (* the generated ids are distinct, and in no fingerprint already there *)
  (∀ i k, n ≤ i < n' → n ≤ k < n' → gen i = gen k → i = k) →
  (∀ i p, n ≤ i < n' → p ∈ all_posts tps → ¬ has_tag p (s2l "fp-uuidb64-" ++ gen i)) →
  fps_distinct (all_posts tps').
Proof. exact (c60_distinct ho gen n tps n' tps'). Qed.
Print Assumptions C60_distinct.
(** After it, and if there are no candidate tags, the journal can be merged. *)
Theorem C60_mergeable ho ho' gen n tps n' tps' :
  hash_order_ok ho → hash_order_ok ho' → fpgen_trns ho gen n tps = (n', tps') → fps_distinct (all_posts tps) →
  (∀ i k, n ≤ i < n' → n ≤ k < n' → gen i = gen k → i = k) →
  (∀ i p, n ≤ i < n' → p ∈ all_posts tps → ¬ has_tag p (s2l "fp-uuidb64-" ++ gen i)) →
  (∀ p t, p ∈ all_posts tps → has_tag p t → ¬ candidate_tag t) →
  ∃ m', merge ho' merger_new tps' = (m', Ok (filter (λ tp, tp_posts tp = []) tps')) ∧
        build ho' m' = Ok (stable_sort (by_key tp_date) (filter (λ tp, tp_posts tp ≠ []) tps')).
Proof. exact (c60_mergeable ho ho' gen n tps n' tps'). Qed.
Print Assumptions C60_mergeable.
(** The command, on any number of journals: what is written has fingerprints that
    are distinct over all of them. *)
Theorem C60_command E ho gen n ps w es :
  hash_order_ok ho → NoDup ps → fpgen_cmd E ho gen n (Path <$> ps) w = (es, Ok tt) →
  ∃ (ls ls' : list (list transaction_postings)),
    Forall2 (λ p tps, ∃ text l, w_files w !! p = Some text ∧ e_parse E text = Some l ∧ supported l ∧
               tps = transaction_postings_of <$> ledger_trns l) ps ls ∧
    Forall2 (λ p tps', w_files (steps w es) !! p = Some (e_print E (into_ledger ho tps'))) ps ls' ∧
    Forall2 (fingerprints_added gen) ls ls' ∧
    (∀ p, p ∈ all_posts (mjoin ls') → ∃ f, has_fp p f) ∧
    ((∀ i k, gen i = gen k → i = k) → (∀ i p, p ∈ all_posts (mjoin ls) → ¬ has_tag p (s2l "fp-uuidb64-" ++ gen i)) →
     fps_distinct (all_posts (mjoin ls)) → fps_distinct (all_posts (mjoin ls'))).
Proof. exact (c60_command E ho gen n ps w es). Qed.
Print Assumptions C60_command.
Example C60_ex : let gen := λ n, [65 + N.of_nat n]%N in
  fpgen_trns default_order gen 0 [ex_tp day1 (s2l "x") [ex_post bank 1 []; ex_post food 2 [s2l "fp-q"]; ex_post food 3 [s2l "t"]]] =
  (2, [ex_tp day1 (s2l "x") [ex_post bank 1 [s2l "fp-uuidb64-A"]; ex_post food 2 [s2l "fp-q"]; ex_post food 3 [s2l "fp-uuidb64-B"; s2l "t"]]]) ∧
  ∀ i k, 0 ≤ i < 2 → 0 ≤ k < 2 → gen i = gen k → i = k.
Proof. split; [by_compute|]. intros i k Hi Hk [= H]. lia. Qed.

(** C61 *)
Theorem C61_from_ledger l tps :
  from_ledger l = Ok tps ↔ supported l ∧ tps = transaction_postings_of <$> ledger_trns l.
Proof. exact (from_ledger_iff l tps). Qed.
Print Assumptions C61_from_ledger.
Theorem C61_unsupported l : ¬ supported l → from_ledger l = Err EUnhandledItem.
Proof. exact (from_ledger_err l). Qed.
Print Assumptions C61_unsupported.
Theorem C61_into_ledger ho tps : alternating (into_ledger ho tps) (transaction_of_postings ho <$> tps).
Proof. exact (ledger_alternating _). Qed.
Print Assumptions C61_into_ledger.
Theorem C61_there_and_back ho tps :
  hash_order_ok ho → (∀ tp, tp ∈ tps → ∃ t, tp = transaction_postings_of t) → (∀ tp, tp ∈ tps → comments_writable tp) →
  from_ledger (into_ledger ho tps) = Ok tps.
Proof. exact (c61_back ho tps). Qed.
Print Assumptions C61_there_and_back.
Example C61_ex : (∀ tp, tp ∈ ex_s0 → ∃ t, tp = transaction_postings_of t) ∧ (∀ tp, tp ∈ ex_s0 → comments_writable tp) ∧
  length (into_ledger default_order ex_s0) = 5 ∧ from_ledger [EmptyLine; EmptyLine; OtherItem] = Err EUnhandledItem.
Proof. split_and!; [exact ex_s0_parsed|apply writable_compute; by_compute|by_compute|by_compute]. Qed.

(** C67 *)
Theorem C67_failing_import E importer output sub make w es r w' es' r' :
  importer w = (es', r') → only_reads es' → (∀ i, r' ≠ Ok i) →
  import_cmd E importer output sub make w = (es, r) → crash_world w es w' → r ≠ Ok tt ∧ untouched w w'.
Proof. exact (c67_failing E importer output sub make w es r w' es' r'). Qed.
Print Assumptions C67_failing_import.
Theorem C67_stdout E importer sub make w es r w' es' r' :
  importer w = (es', r') → only_reads es' → sub = true ∨ make = true →
  import_cmd E importer Stdio sub make w = (es, r) → crash_world w es w' → r ≠ Ok tt ∧ untouched w w'.
Proof. exact (c67_stdout E importer sub make w es r w' es' r'). Qed.
Print Assumptions C67_stdout.
(** [out] is the place that is written. *)
Theorem C67_output E importer output sub make w es' i out :
  importer w = (es', Ok i) → only_reads es' →
  (sub = false → out = output) →
  (sub = true → ∃ p p', output = Path p ∧ out = Path p' ∧ replaced (s2l "%FP_NS%") (im_namespace i) p p') →
  (make = true → out ≠ Stdio) →
  ∃ es r, import_cmd E importer output sub make w = (es, r) ∧
    (* on success it holds the journal, and its directory was made if asked *)
    (r = Ok tt → holds w (steps w es) out (e_print E (ledger_from_transactions (im_transactions i))) ∧
                 (∀ p d, make = true → out = Path p → e_parent E p = Some d → d ∈ w_dirs (steps w es))) ∧
    (* it succeeds if file and directory can be made *)
    (writable E out → (∀ p d, make = true → out = Path p → e_parent E p = Some d → f_mkdir E d = false) → r = Ok tt) ∧
    (* nothing else is touched, whatever happens *)
    ∀ w', crash_world w es w' →
      (∀ p, out ≠ Path p → same_file w w' p) ∧
      (∀ p, out = Path p → same_file w w' p ∨ ∃ part rest,
         e_print E (ledger_from_transactions (im_transactions i)) = part ++ rest ∧ w_files w' !! p = Some part) ∧
      (make = false → w_dirs w' = w_dirs w).
Proof. exact (c67_path E importer output sub make w es' i out). Qed.
Print Assumptions C67_output.
(** There is one such place. *)
Theorem C67_replaced pat sub s : pat ≠ [] →
  replaced pat sub s (str_replace pat sub s) ∧ ∀ s', replaced pat sub s s' → s' = str_replace pat sub s.
Proof. exact (c67_replaced pat sub s). Qed.
Print Assumptions C67_replaced.
Example C67_ex : str_replace (s2l "%FP_NS%") (s2l "ns") (s2l "d/%FP_NS%/%FP_NS%FP_NS%.l") = s2l "d/ns/nsFP_NS%.l" ∧
  let i := Import (s2l "ns") (transaction_of_postings default_order <$> ex_s0) in
  let run := import_cmd ex_E (io_ret i) (Path (s2l "%FP_NS%.l")) true true ex_w in
  run.2 = Ok tt ∧ w_files (steps ex_w run.1) !! s2l "ns.l" = Some (s2l "J1") ∧ s2l "dir" ∈ w_dirs (steps ex_w run.1).
Proof. split; [by_compute|]. cbv zeta. split_and!; by_compute. Qed.

(** C68 *)
Theorem C68_match_set {A} `{EqDecision A} (l : list A) :
  let m := ms_collect l in
  first_seen l (ms_list m) ∧ ms_len m = length (ms_list m) ∧
  match m with MZero => length (ms_list m) = 0 | MOne _ => length (ms_list m) = 1 | MMany _ => 2 ≤ length (ms_list m) end.
Proof. exact (c68 l). Qed.
Print Assumptions C68_match_set.
Theorem C68_determined {A} (l a b : list A) : first_seen l a → first_seen l b → a = b.
Proof. exact (first_seen_fun l a b). Qed.
Print Assumptions C68_determined.
Example C68_ex : ms_collect [3; 1; 3; 2; 1] = MMany [3; 1; 2] ∧ ms_collect [4; 4; 4] = MOne 4.
Proof. done. Qed.

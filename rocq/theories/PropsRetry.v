(** C127: commands that were interrupted can be run again. *)
From Verif Require Import MergeClaims.
From Verif Require Import Base Types SpecBase BaseProofs CommentModel MergeModel CmdModel FingerprintModel NwCsvModel TzModel PaypalModel OcrModel PdfModel RulesModel
  MergeExamples CommentExamples CmdClaims CmdExamples RulesExamples ImportExamples TestsImport ImporterModel WorkCmdExamples PdfExamples PdfDaysExamples PdfWorkClaims PdfWorkExamples
  RetryClaims Retry.
Local Open Scope nat_scope.

(** Whatever attempts were made, running the command gives the files it would
    have given without them. *)
Theorem C127_merge E ho inputs um output w w' es : hash_order_ok ho → apart inputs (output :: option_list um) →
  attempts E (λ E ho, merge_cmd E ho inputs um output) w w' → merge_cmd E ho inputs um output w = (es, Ok tt) →
  merge_cmd E ho inputs um output w' = (es, Ok tt) ∧ w_files (steps w' es) = w_files (steps w es).
Proof. exact (merge_retry E ho inputs um output w w' es). Qed.
Print Assumptions C127_merge.
Theorem C127_rules E X F ho fuel rules input output w w' es : apart [input] [output] →
  attempts E (λ E ho, rules_cmd E X F ho fuel rules input output) w w' → rules_cmd E X F ho fuel rules input output w = (es, Ok (Some tt)) →
  rules_cmd E X F ho fuel rules input output w' = (es, Ok (Some tt)) ∧ w_files (steps w' es) = w_files (steps w es).
Proof. exact (rules_retry E X F ho fuel rules input output w w' es). Qed.
Print Assumptions C127_rules.
Theorem C127_nationwide V pd o input output sub make E ho w w' es : hash_order_ok ho →
  (∀ ns ts out es, nw_importer E V pd ho o input w = (es, Ok (Import ns ts)) → placed output sub ns out → apart [input] [out]) →
  attempts E (λ E ho, import_cmd E (nw_importer E V pd ho o input) output sub make) w w' →
  import_cmd E (nw_importer E V pd ho o input) output sub make w = (es, Ok tt) →
  import_cmd E (nw_importer E V pd ho o input) output sub make w' = (es, Ok tt) ∧ w_files (steps w' es) = w_files (steps w es).
Proof. exact (nw_retry V pd o input output sub make E ho w w' es). Qed.
Print Assumptions C127_nationwide.
Theorem C127_paypal V legacy tz ns input abbrs output sub make E ho w w' es : hash_order_ok ho →
  (∀ out, placed output sub ns out → apart [input; abbrs] [out]) →
  attempts E (λ E ho, import_cmd E (pp_importer E V ho legacy tz ns input abbrs) output sub make) w w' →
  import_cmd E (pp_importer E V ho legacy tz ns input abbrs) output sub make w = (es, Ok tt) →
  import_cmd E (pp_importer E V ho legacy tz ns input abbrs) output sub make w' = (es, Ok tt) ∧ w_files (steps w' es) = w_files (steps w es).
Proof. exact (pp_retry V legacy tz ns input abbrs output sub make E ho w w' es). Qed.
Print Assumptions C127_paypal.
Theorem C127_pdf X T o output sub make doc E ho w w' es : hash_order_ok ho → shows T doc →
  attempts E (λ E ho, import_cmd E (pdf_importer X T ho o) output sub make) w w' →
  import_cmd E (pdf_importer X T ho o) output sub make w = (es, Ok tt) →
  import_cmd E (pdf_importer X T ho o) output sub make w' = (es, Ok tt) ∧ w_files (steps w' es) = w_files (steps w es).
Proof. exact (pdf_retry X T o output sub make doc E ho w w' es). Qed.
Print Assumptions C127_pdf.

(** Disk full when "un" is written, then interrupted when "out" is. *)
Definition ex_disk_full : env := Env (e_parse ex_E) (e_print ex_E) (e_quote ex_E) (e_parent ex_E) (f_read ex_E) (f_create ex_E)
  (λ f, match f with Path p => if str_eqb p (s2l "un") then Some 1 else None | Stdio => None end) (f_mkdir ex_E).
Definition ex_first : world := steps ex_w (merge_cmd ex_disk_full default_order ex_inputs ex_um (Path (s2l "out")) ex_w).1.
Definition ex_second : world := steps ex_first (take 5 (merge_cmd ex_E default_order ex_inputs ex_um (Path (s2l "out")) ex_first).1).
Lemma one_attempt {A} E (cmd : env → hash_order → io A) w w1 E1 ho1 n : attempts E cmd w w1 → same_programs E E1 → hash_order_ok ho1 →
  attempts E cmd w (steps w1 (take n (cmd E1 ho1 w1).1)).
Proof.
  intros H HE Hho. destruct (cmd E1 ho1 w1) as [es r] eqn:Hc. cbn [fst].
  refine (attempts_more E cmd w w1 _ E1 ho1 es r H HE Hho Hc _). exists (take n es), (drop n es). by rewrite take_drop.
Qed.
Lemma whole_attempt {A} E (cmd : env → hash_order → io A) w w1 E1 ho1 : attempts E cmd w w1 → same_programs E E1 → hash_order_ok ho1 →
  attempts E cmd w (steps w1 (cmd E1 ho1 w1).1).
Proof.
  intros H HE Hho. destruct (cmd E1 ho1 w1) as [es r] eqn:Hc. cbn [fst].
  refine (attempts_more E cmd w w1 _ E1 ho1 es r H HE Hho Hc _). exists es, []. by rewrite app_nil_r.
Qed.
Example C127_ex : apart ex_inputs [Path (s2l "out"); Path (s2l "un")] ∧
  attempts ex_E (λ E ho, merge_cmd E ho ex_inputs ex_um (Path (s2l "out"))) ex_w ex_second ∧ ex_run.2 = Ok tt ∧
  (w_files ex_first !! s2l "un", w_files ex_first !! s2l "out") = (Some (s2l "U"), Some (s2l "OLD")) ∧
  (w_files ex_second !! s2l "un", w_files ex_second !! s2l "out") = (Some (s2l "UN"), Some (s2l "O")).
Proof.
  refine (conj _ (conj _ (conj _ (conj _ _)))); [| |by_compute..].
  - intros f Hf.
    assert (Forall (λ f, f ≠ Stdio ∧ f ∉ [Path (s2l "out"); Path (s2l "un")]) ex_inputs) as H by by_compute.
    rewrite Forall_forall in H. by apply H.
  - apply (one_attempt ex_E (λ E ho, merge_cmd E ho ex_inputs ex_um (Path (s2l "out"))) ex_w ex_first ex_E default_order 5); [|done|exact default_order_ok].
    apply (whole_attempt ex_E (λ E ho, merge_cmd E ho ex_inputs ex_um (Path (s2l "out"))) ex_w ex_w ex_disk_full default_order); [constructor|done|exact default_order_ok].
Qed.
(** The runs the others are about: an import interrupted, with the namespace in
    the name of the file; rules interrupted. *)
Definition ex_nw (E : env) (ho : hash_order) : io unit :=
  import_cmd E (nw_importer E wc_V ex_dates ho ex_opts (Path (s2l "1.csv"))) (Path (s2l "%FP_NS%.j")) true true.
Example C127_nationwide_ex : let w' := steps wc_w (take 3 (ex_nw wc_env reverse_order wc_w).1) in
  attempts wc_env ex_nw wc_w w' ∧ (ex_nw wc_env default_order wc_w).2 = Ok tt ∧ (ex_nw wc_env default_order w').2 = Ok tt ∧
  w_files w' !! s2l "cur.j" = Some (s2l "A") ∧
  (∀ ns ts out es, nw_importer wc_env wc_V ex_dates default_order ex_opts (Path (s2l "1.csv")) wc_w = (es, Ok (Import ns ts)) →
     placed (Path (s2l "%FP_NS%.j")) true ns out → apart [Path (s2l "1.csv")] [out]).
Proof.
  cbv zeta. refine (conj _ (conj _ (conj _ (conj _ _)))); [|by_compute..|].
  - apply (one_attempt wc_env ex_nw wc_w wc_w wc_env reverse_order 3); [constructor|done|exact reverse_order_ok].
  - intros ns ts out es Hi Hp. assert (ns = s2l "cur") as ->.
    { apply (f_equal snd) in Hi. apply (f_equal (rmap im_namespace)) in Hi. cbn [snd rmap im_namespace] in Hi.
      assert (rmap im_namespace (nw_importer wc_env wc_V ex_dates default_order ex_opts (Path (s2l "1.csv")) wc_w).2 = Ok (s2l "cur")) as Hx by by_compute.
      rewrite Hx in Hi. by injection Hi. }
    apply (proj2 (placed_spec _ _ _ _)) in Hp. assert (out = Path (s2l "cur.j")) as ->.
    { assert (output_spec (Path (s2l "%FP_NS%.j")) true (s2l "cur") = Ok (Path (s2l "cur.j"))) as Hx by by_compute. rewrite Hx in Hp. by injection Hp. }
    intros f ->%elem_of_list_singleton. split; [done|]. intros [=]%elem_of_list_singleton.
Qed.
Definition ex_pp (E : env) (ho : hash_order) : io unit :=
  import_cmd E (pp_importer E wc_V ho false test_tz (s2l "paypal") (Path (s2l "3.csv")) (Path (s2l "zones.csv"))) (Path (s2l "a")) false false.
Example C127_paypal_ex : let w' := steps wc_w (take 1 (ex_pp wc_env reverse_order wc_w).1) in
  attempts wc_env ex_pp wc_w w' ∧ (ex_pp wc_env default_order wc_w).2 = Ok tt ∧
  (w_files wc_w !! s2l "a", w_files w' !! s2l "a") = (Some (s2l "OLD"), Some []) ∧
  (∀ out, placed (Path (s2l "a")) false (s2l "paypal") out → apart [Path (s2l "3.csv"); Path (s2l "zones.csv")] [out]).
Proof.
  cbv zeta. refine (conj _ (conj _ (conj _ _))); [|by_compute..|].
  - apply (one_attempt wc_env ex_pp wc_w wc_w wc_env reverse_order 1); [constructor|done|exact reverse_order_ok].
  - intros out ->. intros f [->| ->%elem_of_list_singleton]%elem_of_cons; (split; [done|]); intros [=]%elem_of_list_singleton.
Qed.
Definition ex_pdf (E : env) (ho : hash_order) : io unit := import_cmd E (pdf_importer od_env (pw_tools od_doc1) ho ex_cur) (Path (s2l "a")) false false.
Example C127_pdf_ex : shows (pw_tools od_doc1) od_doc1 ∧ (ex_pdf wc_env default_order wc_w).2 = Ok tt ∧
  let w' := steps wc_w (take 1 (ex_pdf wc_env reverse_order wc_w).1) in attempts wc_env ex_pdf wc_w w' ∧ w_files w' !! s2l "a" = Some [].
Proof.
  cbv zeta. refine (conj _ (conj _ (conj _ _))); [|by_compute| |by_compute].
  - apply pw_shows; [apply well_numbered_check; vm_compute; reflexivity|apply Nat.leb_le; vm_compute; reflexivity|vm_compute; reflexivity].
  - apply (one_attempt wc_env ex_pdf wc_w wc_w wc_env reverse_order 1); [constructor|done|exact reverse_order_ok].
Qed.
Definition ex_rules (E : env) (ho : hash_order) : io (option unit) := rules_cmd E rx_X rx_F ho 7 (s2l "/r/main") (Path (s2l "a")) (Path (s2l "out")).
Example C127_rules_ex : apart [Path (s2l "a")] [Path (s2l "out")] ∧ (ex_rules rx_E default_order ex_w).2 = Ok (Some tt) ∧
  let w' := steps ex_w (take 3 (ex_rules rx_E reverse_order ex_w).1) in attempts rx_E ex_rules ex_w w' ∧ w_files w' !! s2l "out" = Some (s2l "RU").
Proof.
  cbv zeta. refine (conj _ (conj _ (conj _ _))); [|by_compute| |by_compute].
  - intros f ->%elem_of_list_singleton. split; [done|]. intros [=]%elem_of_list_singleton.
  - apply (one_attempt rx_E ex_rules ex_w ex_w rx_E reverse_order 3); [constructor|done|exact reverse_order_ok].
Qed.

(** It is necessary that no input is written to: interrupted after the output, which is
    also the input, was emptied, the command ends well when it is run again, and
    the journal is gone. *)
Theorem C127_apart_needed : ∃ E w w' es es' p l, let cmd := λ E ho, merge_cmd E ho [Path p] None (Path p) in
  attempts E cmd w w' ∧ cmd E default_order w = (es, Ok tt) ∧ w_files (steps w es) !! p = Some l ∧ l ≠ [] ∧ cmd E default_order w' = (es', Ok tt) ∧ w_files (steps w' es') !! p = Some [].
Proof.
  pose (cmd := λ E ho, merge_cmd E ho [Path (s2l "a")] None (Path (s2l "a"))).
  pose (l := match (merge_inputs (ex_env ex_c0) default_order merger_new [] [Path (s2l "a")] ex_w).2 with Ok (m, _) => match build default_order m with Ok ts => into_ledger default_order (strip_sources ts) | _ => [] end | _ => [] end).
  pose (E := ex_env [(s2l "J1", ex_l1); ([], []); (s2l "OUT", l)]). pose (w' := steps ex_w (take 1 (cmd E default_order ex_w).1)).
  exists E, ex_w, w', (cmd E default_order ex_w).1, (cmd E default_order w').1, (s2l "a"), (s2l "OUT").
  cbv zeta. refine (conj _ (conj _ (conj _ (conj _ (conj _ _))))).
  - apply (one_attempt E cmd ex_w ex_w E default_order 1); [constructor|done|exact default_order_ok].
  - rewrite (surjective_pairing (merge_cmd _ _ _ _ _ _)) at 1. apply (f_equal (pair _)). by_compute.
  - by_compute.
  - done.
  - rewrite (surjective_pairing (merge_cmd _ _ _ _ _ _)) at 1. apply (f_equal (pair _)). by_compute.
  - by_compute.
Qed.
Print Assumptions C127_apart_needed.

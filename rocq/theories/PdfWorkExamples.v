(** The PDF statements of PdfDaysExamples.v, recognised and imported to files. *)
From stdpp Require Import gmap list.
From Verif Require Import MergeClaims.
From Verif Require Import Base Types SpecBase BaseProofs CommentModel MergeModel CmdModel FingerprintModel NwCsvModel PaypalModel
  CommentClaims CmdClaims ImportClaims EditClaims WindowClaims StatementClaims OcrModel OcrClaims OcrProofs PdfModel PdfClaims PdfFold PdfLaws PdfExamples
  CommentExamples MergeExamples ImportExamples TestsImport WorkflowExamples CmdExamples
  PdfDaysClaims PdfDaysExamples ImporterModel ImporterClaims ImporterLaws ImporterExamples WorkCmdClaims WorkCmd WorkCmdExamples PdfWorkClaims.
Local Open Scope nat_scope.

Definition pw_tools (doc : document) : ocr_tools := demo_tools 0 (ex_images (length doc)) (pages_as doc).
Definition pw_ss : list pdf_file :=
  [PdfFile default_order (pw_tools od_doc1) (s2l "a") [0; 1]; PdfFile reverse_order (pw_tools od_doc2) (s2l "b") [1; 2]].
Definition pw_tss : list (list transaction) := [od_ts od_doc1; od_ts od_doc2].
Definition pw_env : env := ex_env
  [(s2l "A", ledger_from_transactions (od_ts od_doc1)); (s2l "B", ledger_from_transactions (od_ts od_doc2)); (s2l "AB", wc_out (od_ts od_doc))].
Definition pw_w : world := World {[ s2l "a" := s2l "OLD" ]} ∅ [] [].
Definition pw_run_all (w : world) (runs : list (io import * str)) : world :=
  foldl (λ w r, steps w (import_cmd pw_env r.1 (Path r.2) false false w).1) w runs.
Lemma pw_imports_check w runs tss :
  (fix go w runs tss := match runs, tss with
    | [], [] => true
    | r :: runs, ts :: tss =>
        match r.1 w, import_cmd pw_env r.1 (Path r.2) false false w with
        | (_, Ok i), (es, Ok _) => bool_decide (im_transactions i = ts) && go (steps w es) runs tss
        | _, _ => false
        end
    | _, _ => false
    end) w runs tss = true → imports pw_env w runs tss (pw_run_all w runs).
Proof.
  revert w tss. induction runs as [|[imp out] runs IH]; intros w [|ts tss] H; try done; [constructor|].
  cbn [fst snd] in H. destruct (imp w) as [es0 [[ns ts0]|e|]] eqn:E1; [|done..].
  destruct (import_cmd pw_env imp (Path out) false false w) as [es [[]|e|]] eqn:E2; [|done..].
  apply andb_true_iff in H as [H1 H2]. apply bool_decide_eq_true in H1. cbn [im_transactions] in H1. subst ts0.
  unfold pw_run_all. cbn [foldl fst snd]. rewrite E2. cbn [fst]. econstructor; [exact E1|exact E2|]. by apply IH.
Qed.
Lemma pw_imports : imports pw_env pw_w (pdf_run od_env ex_cur <$> pw_ss) pw_tss (pw_run_all pw_w (pdf_run od_env ex_cur <$> pw_ss)).
Proof. apply pw_imports_check. vm_compute. reflexivity. Qed.
Lemma pw_prints : Forall (prints_back pw_env) pw_tss.
Proof. repeat (apply Forall_cons; split; [vm_compute; reflexivity|]); done. Qed.

Lemma numbered_check {A} (num : A → Z) l : num <$> l = (λ i, Z.of_nat i + 1)%Z <$> seq 0 (length l) → numbered num l.
Proof.
  intros H i x Hi. assert ((num <$> l) !! i = Some (num x)) as Hn by (by rewrite list_lookup_fmap, Hi).
  rewrite H, list_lookup_fmap in Hn. rewrite lookup_seq_lt in Hn by (by eapply lookup_lt_Some). by injection Hn as <-.
Qed.
Definition numberedb {A} (num : A → Z) (l : list A) : bool := bool_decide (num <$> l = (λ i, Z.of_nat i + 1)%Z <$> seq 0 (length l)).
Lemma well_numbered_check doc :
  numberedb pg_num doc && forallb (λ p, numberedb bk_num (pg_blocks p) && forallb (λ b, numberedb pa_num (bk_paragraphs b) &&
    forallb (λ q, numberedb ln_num (pa_lines q) && forallb (λ l, numberedb wd_num (ln_words l)) (pa_lines q)) (bk_paragraphs b)) (pg_blocks p)) doc = true →
  well_numbered doc.
Proof.
  rewrite andb_true_iff, forallb_forall. intros [H1 H].
  assert (∀ p, p ∈ doc → numbered bk_num (pg_blocks p) ∧ ∀ b, b ∈ pg_blocks p → numbered pa_num (bk_paragraphs b) ∧
    ∀ q, q ∈ bk_paragraphs b → numbered ln_num (pa_lines q) ∧ ∀ l, l ∈ pa_lines q → numbered wd_num (ln_words l)) as H'.
  { intros p Hp. specialize (H p (proj1 (elem_of_list_In _ _) Hp)). rewrite andb_true_iff, forallb_forall in H. destruct H as [Ha H].
    split; [by apply numbered_check, (bool_decide_eq_true_1 _)|]. intros b Hb. specialize (H b (proj1 (elem_of_list_In _ _) Hb)). rewrite andb_true_iff, forallb_forall in H. destruct H as [Hb' H].
    split; [by apply numbered_check, (bool_decide_eq_true_1 _)|]. intros q Hq. specialize (H q (proj1 (elem_of_list_In _ _) Hq)). rewrite andb_true_iff, forallb_forall in H. destruct H as [Hc H].
    split; [by apply numbered_check, (bool_decide_eq_true_1 _)|]. intros l Hl. specialize (H l (proj1 (elem_of_list_In _ _) Hl)). by apply numbered_check, (bool_decide_eq_true_1 _). }
  split; [by apply numbered_check, (bool_decide_eq_true_1 _)| | | |]; intros; repeat (eapply H'; [eassumption..|]) || eapply H'; eassumption.
Qed.
Lemma pw_shows doc : well_numbered doc → length doc ≤ 100 →
  mjoin (imap (pages_as doc) (ex_images (length doc))) = record_of <$> nodes doc → shows (pw_tools doc) doc.
Proof.
  intros Hw Hl Hr. split; [apply demo_tmp|]. split; [done|]. exists (ex_images (length doc)), (pages_as doc).
  split; [apply demo_renders|]. split; [apply demo_recognises|]. split; [unfold ex_images; by rewrite fmap_length, seq_length|].
  rewrite Hr. apply Forall2_fmap_l. clear Hr. induction (nodes doc) as [|n ns IH]; [constructor|]. constructor; [apply record_of_ok|done].
Qed.
Lemma pw_file ho doc out ds : hash_order_ok ho → NoDup ds → shows (pw_tools doc) doc →
  forallb (λ t, match read_lines od_env t with Ok _ => true | _ => false end) (doc ≫= find_in_page) = true →
  find_account_name doc = Some (s2l "12-34-56 12345678") →
  unplaced_group <$> (group_up (lines_in od_env doc)).2 = window od_parts ds →
  pdf_file_ok od_env (s2l "12-34-56 12345678") od_parts (PdfFile ho (pw_tools doc) out ds).
Proof.
  intros Hho Hnd Hs Hl Hn Hw. split; [done|]. split; [done|].
  exists doc, (lines_in od_env doc), (group_up (lines_in od_env doc)).1, (group_up (lines_in od_env doc)).2.
  split; [done|]. split; [by apply account_spec|]. split; [by apply lines_in_spec|]. split; [apply group_up_spec|done].
Qed.
Lemma pw_files : Forall (pdf_file_ok od_env (s2l "12-34-56 12345678") od_parts) pw_ss.
Proof.
  assert (shows (pw_tools od_doc1) od_doc1 ∧ shows (pw_tools od_doc2) od_doc2) as [H1 H2].
  { split; (apply pw_shows; [apply well_numbered_check; vm_compute; reflexivity|apply Nat.leb_le; vm_compute; reflexivity|vm_compute; reflexivity]). }
  apply Forall_cons. split; [|apply Forall_singleton].
  - apply pw_file; [exact default_order_ok|by_compute|done|vm_compute; reflexivity..].
  - apply pw_file; [exact reverse_order_ok|by_compute|done|vm_compute; reflexivity..].
Qed.

(** Instances for C114: three days on two overlapping PDF statements, the second on
    two pages. *)
From Verif Require Import MergeClaims.
From Verif Require Import Base Types SpecBase BaseProofs CommentModel MergeModel Sha1 FingerprintModel NwCsvModel PaypalModel
  CommentClaims FingerprintClaims ImportClaims ImportLaws CommentExamples TestsImport ImportExamples OcrModel PdfModel PdfClaims PdfTable PdfFold PdfLaws PdfLaws2
  PdfExamples WindowClaims WorkflowExamples PdfDaysClaims.
From Coq Require Import Lia.
Local Open Scope nat_scope.

Definition lines_in (E : pdf_env) (doc : document) : list trn_line :=
  (doc ≫= find_in_page) ≫= λ t, match read_lines E t with Ok ls => upto_gap None ls | _ => [] end.
Lemma lines_in_spec E doc : forallb (λ t, match read_lines E t with Ok _ => true | _ => false end) (doc ≫= find_in_page) = true →
  statement_lines E doc (lines_in E doc).
Proof.
  intros H. apply statement_lines_model. unfold lines_in. set (ts := doc ≫= find_in_page) in *. clearbody ts.
  exists ((λ t, match read_lines E t with Ok ls => ls | _ => [] end) <$> ts).
  exists (upto_gap None <$> ((λ t, match read_lines E t with Ok ls => ls | _ => [] end) <$> ts)).
  induction ts as [|t ts IH]; [split; [constructor|]; split; [constructor|done]|].
  cbn [forallb] in H. apply andb_true_iff in H as [H1 H2]. destruct (IH H2) as (I1 & I2 & I3). rewrite bind_cons, !fmap_cons.
  destruct (read_lines E t) as [ls| |] eqn:El; try done. split; [by constructor|]. split; [constructor; [by apply before_gap_upto|done]|].
  change (mjoin (?x :: ?l)) with (x ++ mjoin l). by rewrite I3.
Qed.
Local Open Scope string_scope.
Definition od_env : pdf_env := PdfEnv
  (λ s, find_text s [("2.50", Dec false 2 250); ("1.20", Dec false 2 120); ("7.00", Dec false 2 700); ("90.00", Dec false 2 9000)])
  (λ s, find_text s [("2021", 2021%Z)]) (λ s, find_text s [("01", 1%N); ("02", 2%N); ("03", 3%N)]) (λ s, find_text s [("Sep", 9%N)])
  (λ _, None).
Definition od_table (rows : list (list (Z * string))) : list line :=
  head_line 1 40 :: imap (λ i ws, ex_line (2 + Z.of_nat i) (50 + 10 * Z.of_nat i) ws) (row_words ["2021"] [] [] [] [] :: rows).
Definition od_coffee := row_words ["01"; "Sep"] ["Coffee"] ["2.50"] [] [].
Definition od_refund := row_words ["02"; "Sep"] ["Refund"] [] ["7.00"] [].
Definition od_shop := row_words [] ["At"; "shop"] [] [] [].
Definition od_tea := row_words [] ["Tea"] ["1.20"] [] ["90.00"].
Definition od_tea' := row_words ["02"; "Sep"] ["Tea"] ["1.20"] [] ["90.00"].
Definition od_coffee2 := row_words ["03"; "Sep"] ["Coffee"] ["2.50"] [] [].
Definition od_coffee3 := row_words [] ["Coffee"] ["2.50"] [] [].
Definition od_doc1 : document := [ex_page 1 [ex_account; od_table [od_coffee; od_refund; od_shop; od_tea]]].
Definition od_doc2 : document := [ex_page 1 [ex_account; od_table [od_refund; od_shop]]; ex_page 2 [od_table [od_tea'; od_coffee2; od_coffee3]]].
Definition od_doc : document := [ex_page 1 [ex_account; od_table [od_coffee; od_refund; od_shop; od_tea; od_coffee2; od_coffee3]]].
Local Close Scope string_scope.
Local Open Scope nat_scope.
Definition od_line (d : N) (t : string) (p r b : option string) : trn_line :=
  TrnLine (Some (2021%Z, 9%N, d)) (s2l t) (s2l <$> p) (s2l <$> r) (s2l <$> b) 0 0.
Arguments od_line d%N t%string (p r b)%string.
Definition od_parts : list (list group) :=
  [ [(od_line 1 "Coffee" (Some "2.50"%string) None None, [])];
    [(od_line 2 "Refund" None (Some "7.00"%string) None, [od_line 2 "At shop" None None None]);
     (od_line 2 "Tea" (Some "1.20"%string) None (Some "90.00"%string), [])];
    [(od_line 3 "Coffee" (Some "2.50"%string) None None, []); (od_line 3 "Coffee" (Some "2.50"%string) None None, [])] ].
Definition od_ts (doc : document) : list transaction :=
  match pdf_import od_env default_order ex_cur doc with Ok (_, ts) => ts | _ => [] end.
Definition od_dates : list date := [(2021%Z, 9%N, 1%N); (2021%Z, 9%N, 2%N); (2021%Z, 9%N, 3%N)].
Lemma od_days : whole_days od_dates od_parts.
Proof.
  split; [by_compute|]. split; [done|].
  assert (Forall2 (λ d D, Forall (λ l, tl_date l = Some d) (D ≫= group_lines)) od_dates od_parts) as H by by_compute.
  intros k d D g l Hd HD Hg Hl. pose proof (Forall2_lookup_lr _ _ _ _ _ _ H Hd HD) as Hf. apply (proj1 (Forall_forall _ _) Hf).
  apply elem_of_list_bind. eauto.
Qed.
Lemma od_statement doc w : NoDup w →
  forallb (λ t, match read_lines od_env t with Ok _ => true | _ => false end) (doc ≫= find_in_page) = true →
  find_account_name doc = Some (s2l "12-34-56 12345678") →
  unplaced_group <$> (group_up (lines_in od_env doc)).2 = window od_parts w →
  (match pdf_import od_env default_order ex_cur doc with Ok (ns, _) => bool_decide (ns = s2l "cur") | _ => false end) = true →
  pdf_statement od_env ex_cur (s2l "12-34-56 12345678") od_parts w (od_ts doc).
Proof.
  intros Hnd Hl Hn Hw Him. split; [done|]. unfold od_ts.
  exists default_order, doc, (s2l "cur"), (lines_in od_env doc), (group_up (lines_in od_env doc)).1, (group_up (lines_in od_env doc)).2.
  split; [apply default_order_ok|]. split; [by apply account_spec|]. split; [by apply lines_in_spec|]. split; [apply group_up_spec|]. split; [done|].
  destruct (pdf_import od_env default_order ex_cur doc) as [[ns ts]| |]; try discriminate Him. apply bool_decide_eq_true in Him. by rewrite Him.
Qed.
Lemma od_1 : pdf_statement od_env ex_cur (s2l "12-34-56 12345678") od_parts [0; 1] (od_ts od_doc1).
Proof. apply od_statement; [by_compute|vm_compute; reflexivity..]. Qed.
Lemma od_2 : pdf_statement od_env ex_cur (s2l "12-34-56 12345678") od_parts [1; 2] (od_ts od_doc2).
Proof. apply od_statement; [by_compute|vm_compute; reflexivity..]. Qed.
Lemma od_all : pdf_statement od_env ex_cur (s2l "12-34-56 12345678") od_parts [0; 1; 2] (od_ts od_doc).
Proof. apply od_statement; [by_compute|vm_compute; reflexivity..]. Qed.
Lemma od_covers : covers [[0; 1]; [1; 2]] [0; 1; 2].
Proof. apply covers_check; by_compute. Qed.
Lemma od_env_ok : env_ok od_env.
Proof.
  intros s q Hq%find_text_in. cbn in Hq. rewrite !elem_of_cons in Hq. destruct Hq as [->|[->|[->|[->|[]%elem_of_nil]]]]; split; cbn; lia.
Qed.
Lemma od_texts t : t ∈ od_ts od_doc → str_ok (t_description t).
Proof.
  intros Ht. assert (t_description t ∈ t_description <$> od_ts od_doc) as H by (apply elem_of_list_fmap; eauto).
  assert (t_description <$> od_ts od_doc = [s2l "Coffee"; s2l "Refund At shop"; s2l "Tea"; s2l "Coffee"; s2l "Coffee"]) as E by (vm_compute; reflexivity).
  rewrite E, !elem_of_cons in H. destruct H as [->|[->|[->|[->|[->|[]%elem_of_nil]]]]]; apply str_ok_check; reflexivity.
Qed.
Lemma od_no_collision : ¬ pdf_collides (od_ts od_doc) (sequence None 0 (window od_parts [0; 1; 2])).
Proof. apply pdf_no_collision_check. by_compute. Qed.

(** Instances for C113. *)
From Verif Require Import MergeClaims.
From Verif Require Import Base Types SpecBase BaseProofs CommentModel MergeModel MergeSpec MergeLemmas Sha1 FingerprintModel NwCsvModel PaypalModel
  CommentClaims FingerprintClaims ImportClaims ImportLaws TestsImport ImportExamples OcrModel PdfModel PdfClaims PdfTable PdfFold PdfLaws PdfLaws2 PdfExamples WorkflowExamples TwinClaims StmtTwinClaims.
From Coq Require Import Lia QArith.
Local Open Scope nat_scope.

(** ** A checker for [statements_agree] *)
Definition own_amount (t : transaction) : option amount :=
  match t_postings t with
  | own :: _ => match p_amount own with Some (PostingAmount a None None) => Some a | _ => None end
  | [] => None
  end.
Lemma own_amount_spec t a : own_amount_is t a → own_amount t = Some a.
Proof. intros (own & rest & E & Ha). unfold own_amount. by rewrite E, Ha. Qed.
Lemma own_amount_spec' t a : own_amount t = Some a → own_amount_is t a.
Proof.
  unfold own_amount. destruct (t_postings t) as [|own rest] eqn:E; [done|]. destruct (p_amount own) as [[b [|] [|]]|] eqn:Ha; try done.
  intros [= ->]. by exists own, rest.
Qed.
Definition sizes_differ (a b : amount) : bool :=
  negb (commodity_eqb (a_commodity a) (a_commodity b)) ||
  negb (Qeq_bool (dec_value (a_quantity a)) (dec_value (a_quantity b))) && negb (Qeq_bool (dec_value (a_quantity a)) (- dec_value (a_quantity b))).
Lemma sizes_differ_spec a b : sizes_differ a b = true → ¬ same_size a b.
Proof.
  unfold sizes_differ. intros [H|[H1 H2]%andb_true_iff]%orb_true_iff [Hc [Hv|Hv]].
  1,2: apply negb_true_iff in H; rewrite (proj2 (commodity_eqb_spec _ _) Hc) in H; done.
  - apply Qeq_bool_iff in Hv. by rewrite Hv in H1.
  - apply Qeq_bool_iff in Hv. by rewrite Hv in H2.
Qed.
Definition same_paymentb (t t' : transaction) : bool :=
  bool_decide (t_date t' = t_date t) &&
  match own_amount t, own_amount t' with Some a, Some b => amount_eqb a b | _, _ => false end &&
  match t_postings t, t_postings t' with
  | own :: _, own' :: _ => match p_balance own, p_balance own' with Some _, Some _ => false | _, _ => true end
  | _, _ => true
  end.
Lemma same_payment_check t t' : same_paymentb t t' = true → same_payment t t'.
Proof.
  unfold same_paymentb. intros [[H1%bool_decide_eq_true H2]%andb_true_iff H3]%andb_true_iff. split; [done|]. split.
  - destruct (own_amount t) as [a|] eqn:E, (own_amount t') as [b|] eqn:E'; try done. apply amount_eqb_spec in H2.
    exists a, b. split_and!; [by apply own_amount_spec'..|done].
  - intros own own' rest rest' x y E E' Hx Hy. rewrite E, E', Hx, Hy in H3. done.
Qed.
Definition apart_check (l : list transaction) : bool :=
  forallb (λ ix, forallb (λ jy, bool_decide (ix.1 = jy.1) || bool_decide (t_date ix.2 ≠ t_date jy.2) ||
    match own_amount ix.2, own_amount jy.2 with Some a, Some b => sizes_differ a b | _, _ => true end) (imap pair l)) (imap pair l).
Lemma statements_agree_check w new :
  forallb (λ x : transaction * option transaction, match x.2 with Some t' => same_paymentb x.1 t' | None => true end) w = true →
  apart_check (w.*1 ++ new) = true →
  forallb (λ t, match own_amount t with Some a => negb (Qeq_bool (dec_value (a_quantity a)) 0) | None => true end) w.*1 = true →
  statements_agree w new.
Proof.
  intros H1 H2 H3. split.
  - intros t t' Hin. rewrite forallb_forall in H1. apply elem_of_list_In in Hin. by apply same_payment_check, (H1 (t, Some t')).
  - intros i k t t' a a' Hi Hk Hne Hd Ha Ha'. unfold apart_check in H2. rewrite forallb_forall in H2.
    assert (∀ {T} (l : list T) j x, l !! j = Some x → In (j, x) (imap pair l)) as Hin
      by (intros T l j x H; apply elem_of_list_In, elem_of_lookup_imap; eauto).
    specialize (H2 _ (Hin _ _ _ _ Hi)). rewrite forallb_forall in H2. specialize (H2 _ (Hin _ _ _ _ Hk)). cbn [fst snd] in H2.
    rewrite (own_amount_spec t a Ha), (own_amount_spec t' a' Ha') in H2.
    apply orb_true_iff in H2 as [[H2%bool_decide_eq_true|H2%bool_decide_eq_true]%orb_true_iff|H2]; [done|done|]. by apply sizes_differ_spec.
  - intros t a Ht Ha Hz. rewrite forallb_forall in H3. apply elem_of_list_In, H3 in Ht. rewrite (own_amount_spec t a Ha) in Ht.
    apply Qeq_bool_iff in Hz. by rewrite Hz in Ht.
Qed.

(** ** A statement as CSV, and as a PDF that lacks one payment and has another *)
Definition st_rows : list csv_record :=
  [ ex_row "01 Sep 2021" "COFFEE" "2.50"; ex_row "01 Sep 2021" "BUN" "1.80"; ex_row "02 Sep 2021" "TEA" "1.20" ].
Definition st_records : list nw_record := [ex_record 1 "COFFEE" 250; ex_record 1 "BUN" 180; ex_record 2 "TEA" 120].
Definition st_ts : list transaction := snd (rok (nw_csv_import ex_dates default_order ex_opts (ex_head ++ st_rows)) ([], [])).
Local Open Scope string_scope.
Definition st_env : pdf_env := PdfEnv
  (λ s, find_text s [("2.50", Dec false 2 250); ("1.20", Dec false 2 120); ("7.00", Dec false 2 700); ("90.00", Dec false 2 9000)])
  (λ s, find_text s [("2021", 2021%Z)]) (λ s, find_text s [("01", 1%N); ("02", 2%N)]) (λ s, find_text s [("Sep", 9%N)])
  (λ _, None).
Definition st_doc : document := [ex_page 1 [ex_account;
  [head_line 1 40; ex_line 2 50 (row_words ["2021"] [] [] [] []);
   ex_line 3 60 (row_words ["01"; "Sep"] ["Coffee"] ["2.50"] [] []);
   ex_line 4 70 (row_words ["02"; "Sep"] ["Refund"] [] ["7.00"] []);
   ex_line 5 80 (row_words [] ["Tea"] ["1.20"] [] ["90.00"])]]].
Local Close Scope string_scope.
Local Open Scope nat_scope.
Definition st_ts' : list transaction :=
  match pdf_import st_env default_order ex_cur st_doc with Ok (_, ts) => ts | _ => [] end.
Lemma st_csv : nw_csv_import ex_dates default_order ex_opts (ex_head ++ st_rows) = Ok (s2l "cur", st_ts) ∧ length st_ts = 3.
Proof. split; by_compute. Qed.
Lemma st_pdf : pdf_import st_env default_order ex_cur st_doc = Ok (s2l "cur", st_ts') ∧ length st_ts' = 3.
Proof. split; [vm_compute; reflexivity|by_compute]. Qed.
Lemma st_fields : fields_ok (ex_head ++ st_rows).
Proof. by apply fields_ok_check. Qed.
Lemma st_reads : statement_reads ex_dates (ex_head ++ st_rows) (s2l "Current") st_records.
Proof. apply ex_reads. vm_compute. reflexivity. Qed.
Lemma st_contiguous : contiguous (rec_date <$> st_records).
Proof.
  intros i j k d Hij Hjk. destruct k as [|[|[|k]]]; [lia|lia|..]; cbn; [|done].
  assert (i = 0 ∧ j = 1) as [-> ->] by lia. done.
Qed.
Lemma st_no_collision : ¬ statement_collides st_records.
Proof. apply statement_check; [vm_compute; reflexivity|by_compute]. Qed.
Lemma st_env_ok : env_ok st_env.
Proof.
  intros s q Hq%find_text_in. cbn in Hq. rewrite !elem_of_cons in Hq. destruct Hq as [->|[->|[->|[->|[]%elem_of_nil]]]]; split; cbn; lia.
Qed.
Definition st_lines : list trn_line :=
  (st_doc ≫= find_in_page) ≫= λ t, match read_lines st_env t with Ok ls => upto_gap None ls | _ => [] end.
Lemma st_lines_ok : statement_lines st_env st_doc st_lines.
Proof.
  apply statement_lines_model. unfold st_lines. assert (∃ t, st_doc ≫= find_in_page = [t]) as [t E] by (eexists; vm_compute; reflexivity).
  assert (∃ ls, rmapM (read_lines st_env) (st_doc ≫= find_in_page) = Ok ls) as [ls El] by (eexists; vm_compute; reflexivity).
  rewrite E in *. cbn [rmapM] in El. apply rbind_ok in El as (l & El & _). exists [l], [upto_gap None l].
  split; [|split].
  - apply List.Forall2_cons; [done|apply List.Forall2_nil].
  - apply List.Forall2_cons; [by apply before_gap_upto|apply List.Forall2_nil].
  - rewrite bind_cons, El. done.
Qed.
Lemma st_texts t : t ∈ st_ts' → str_ok (t_description t).
Proof.
  intros Ht. assert (t_description t ∈ t_description <$> st_ts') as H by (apply elem_of_list_fmap; eauto).
  assert (t_description <$> st_ts' = [s2l "Coffee"; s2l "Refund"; s2l "Tea"]) as E by (vm_compute; reflexivity).
  rewrite E, !elem_of_cons in H. destruct H as [->|[->|[->|[]%elem_of_nil]]]; apply str_ok_check; reflexivity.
Qed.
Definition st_groups : list group := (group_up st_lines).2.
Lemma st_together : together (tl_date <$> (st_groups ≫= group_lines)).
Proof.
  assert (tl_date <$> (st_groups ≫= group_lines) = let d n := Some (2021%Z, 9%N, n) in [d 1%N; d 2%N; d 2%N]) as -> by (vm_compute; reflexivity).
  intros i j k x Hij Hjk Hi Hk. destruct k as [|[|[|k]]]; [lia|lia|..|done]; cbn in Hk; injection Hk as <-;
    destruct i as [|[|[|i]]]; cbn in Hi; try discriminate Hi; destruct j as [|[|[|j]]]; try lia; done.
Qed.
Lemma st_pdf_no_collision : ¬ pdf_collides st_ts' (sequence None 0 st_groups).
Proof. apply pdf_no_collision_check. by_compute. Qed.

(** Payments by position: the first and the last of the CSV are in both. *)
Definition st_w : aligned :=
  match st_ts, st_ts' with [a; b; c], [a'; b'; c'] => [(a, Some a'); (b, None); (c, Some c')] | _, _ => [] end.
Definition st_new : list transaction := match st_ts' with [_; b'; _] => [b'] | _ => [] end.
Lemma st_w_ok : st_w.*1 = st_ts ∧ st_ts' ≡ₚ omap snd st_w ++ st_new.
Proof.
  unfold st_w, st_new. pose proof (proj2 st_csv) as H1. pose proof (proj2 st_pdf) as H2. revert H1 H2. generalize st_ts, st_ts'.
  intros [|a [|b [|c [|]]]] [|a' [|b' [|c' [|]]]] H1 H2; try discriminate H1; try discriminate H2.
  split; [done|]. cbn. apply perm_skip, perm_swap.
Qed.
Lemma st_agree : statements_agree st_w st_new.
Proof. apply statements_agree_check; vm_compute; reflexivity. Qed.
Lemma st_result : (λ tp, (t_description (ti_raw (tp_trn tp)), length ∘ fps_of <$> tp_posts tp)) <$> (payment <$> st_w) =
  [(s2l "COFFEE", [2; 2]); (s2l "BUN", [1; 1]); (s2l "TEA", [2; 2])].
Proof. vm_compute. reflexivity. Qed.
(** The other way round. *)
Definition st_w2 : aligned :=
  match st_ts, st_ts' with [a; b; c], [a'; b'; c'] => [(a', Some a); (b', None); (c', Some c)] | _, _ => [] end.
Definition st_new2 : list transaction := match st_ts with [_; b; _] => [b] | _ => [] end.
Lemma st_w2_ok : st_w2.*1 = st_ts' ∧ st_ts ≡ₚ omap snd st_w2 ++ st_new2.
Proof.
  unfold st_w2, st_new2. pose proof (proj2 st_csv) as H1. pose proof (proj2 st_pdf) as H2. revert H1 H2. generalize st_ts, st_ts'.
  intros [|a [|b [|c [|]]]] [|a' [|b' [|c' [|]]]] H1 H2; try discriminate H1; try discriminate H2.
  split; [done|]. cbn. apply perm_skip, perm_swap.
Qed.
Lemma st_agree2 : statements_agree st_w2 st_new2.
Proof. apply statements_agree_check; vm_compute; reflexivity. Qed.

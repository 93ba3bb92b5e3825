(** A current account and a savings account, for the examples beside C132. *)
From Verif Require Import MergeClaims.
From stdpp Require Import gmap list.
From Verif Require Import Base Types SpecBase BaseProofs CommentModel MergeModel CmdModel Sha1 FingerprintModel NwCsvModel TzModel PaypalModel
  CommentClaims FingerprintClaims CmdClaims ImportClaims ImportLaws EditClaims WindowClaims StatementClaims CommentExamples MergeExamples ImportExamples TestsImport WorkflowExamples CmdExamples
  MergeLemmas ImportProofs ImportRows SameFpExamples OcrModel PdfModel PdfClaims PdfDaysClaims NsUseClaims
  RulesModel RulesClaims RulesProofs RulesLaws RulesLoad RulesCmd RulesExamples CmdIdem HeaderClaims PipeClaims Pipe PipeExamples
  AssertClaims Assert AssertExamples AccountsClaims.
From Coq Require Import Lia QArith.
Local Open Scope nat_scope.

(** The current account is that of C131: four payments on 1 to 3 September. *)
Definition ac_cur : history :=
  History (NationwideCsv ex_dates (six_opts false) (s2l "Current") ab_days) (s2l "cur") (Some (rx_X, ab_loaded_T)) [0; 1; 2] (ab_import [0; 1; 2]).
(** Payments on 2 and 4 September. *)
Definition sv_opts : nw_opts := NwOpts false (NsFixed (s2l "sav")).
Definition sv_rows : list (list csv_record) :=
  [ [ab_row "02 Sep 2021" "INTEREST" "" "0.05" "500.05"]; [ab_row "04 Sep 2021" "TRANSFER" "7.00" "" "493.05"];
    [ab_row "03 Sep 2021" "BUS" "1.20" "" "491.85"] ].
Definition sv_days : list (list nw_record) :=
  [ [ab_record 2 "INTEREST" None (Some 5%N) 50005]; [ab_record 4 "TRANSFER" (Some 700%N) None 49305];
    [ab_record 3 "BUS" (Some 120%N) None 49185] ].
Definition sv_import (w : list nat) : list transaction :=
  snd (rok (nw_csv_import ex_dates default_order sv_opts (six_head ++ window sv_rows w)) ([], [])).
Lemma sv_statement w : NoDup w → forallb (λ r, forallb field_okb r) (six_head ++ window sv_rows w) = true →
  rmapM (λ r, rmap Six (de_six ex_dates r)) (window sv_rows w) = Ok (window sv_days w) →
  nw_csv_import ex_dates default_order sv_opts (six_head ++ window sv_rows w) = Ok (s2l "sav", sv_import w) →
  nw_statement ex_dates sv_opts (s2l "Current") sv_days w (sv_import w).
Proof.
  intros Hnd Hf Hr Hi. split; [done|]. exists default_order, (six_head ++ window sv_rows w), (s2l "sav").
  split_and!; [exact default_order_ok|by apply fields_ok_check|by apply six_statement|done].
Qed.
Definition ac_sav (w : list nat) : history :=
  History (NationwideCsv ex_dates sv_opts (s2l "Current") sv_days) (s2l "sav") None w (sv_import w).
Lemma sv_days_ok : days rec_date sv_days.
Proof.
  assert (∀ i D a, sv_days !! i = Some D → a ∈ D → rec_date a = (2021%Z, 9%N, match i with 0 => 2%N | 1 => 4%N | _ => 3%N end)) as H.
  { intros i D a Hi Ha. destruct i as [|[|[|i]]]; [..|done]; injection Hi as <-;
      repeat (apply elem_of_cons in Ha as [->|Ha]; [reflexivity|]); by apply elem_of_nil in Ha. }
  intros i k D E a b HD HE Ha Hb. rewrite (H _ _ _ HD Ha), (H _ _ _ HE Hb). split; [|by intros ->].
  apply lookup_lt_Some in HD, HE. cbn in HD, HE. destruct i as [|[|[|i]]], k as [|[|[|k]]]; try done; lia.
Qed.
Lemma sv_one w : w ∈ [[0; 1]; [1]; [2]] → statement_of (h_account (ac_sav w)) w (sv_import w).
Proof.
  intros Hw. repeat (apply elem_of_cons in Hw as [->|Hw]; [apply sv_statement; [by_compute|vm_compute; reflexivity..]|]).
  by apply elem_of_nil in Hw.
Qed.
Lemma ac_cur_ok : history_ok ac_cur.
Proof.
  split; cbn [ac_cur h_account h_namespace h_rules h_days h_all by_day account_namespace statement_of no_collision rules_fit].
  - split; [exact ex_dates_ok|exact ab_days_ok].
  - constructor.
  - split; [apply ab_loaded|exact ab_leaves].
  - exact ab_all.
  - exact ab_no_collision.
Qed.
Lemma ac_sav_ok w : w ∈ [[0; 1]; [1]; [2]] → history_ok (ac_sav w).
Proof.
  intros Hw. split; cbn [ac_sav h_account h_namespace h_rules h_days h_all by_day account_namespace no_collision rules_fit].
  - split; [exact ex_dates_ok|exact sv_days_ok].
  - constructor.
  - done.
  - by apply sv_one.
  - repeat (apply elem_of_cons in Hw as [->|Hw]; [apply six_check; [vm_compute; reflexivity|by_compute]|]). by apply elem_of_nil in Hw.
Qed.
Definition ac_hs : list history := [ac_cur; ac_sav [0; 1]].
(** Two statements of each, in turn; a day of each is on both. *)
Definition ac_inputs : list input :=
  [Input 0 [0; 1] (ab_J (ab_import [0; 1])); Input 1 [0; 1] (as_merged (sv_import [0; 1]));
   Input 0 [2; 1] (ab_J (ab_import [2; 1])); Input 1 [1] (as_merged (sv_import [1]))].
Lemma ac_inputs_ok : Forall (input_of ac_hs) ac_inputs.
Proof.
  assert (∀ w, update_transactions rx_X default_order ab_loaded_T 7 (as_merged (ab_import w)) = Some (Ok (ab_J (ab_import w))) →
    nw_statement ex_dates (six_opts false) (s2l "Current") ab_days w (ab_import w) → input_of ac_hs (Input 0 w (ab_J (ab_import w)))) as H0.
  { intros w Hu Hs. exists ac_cur, (ab_import w). split; [reflexivity|]. split; [exact Hs|]. by apply ab_ruled. }
  assert (∀ w, w ∈ [[0; 1]; [1]; [2]] → input_of ac_hs (Input 1 w (as_merged (sv_import w)))) as H1.
  { intros w Hw. exists (ac_sav [0; 1]), (sv_import w). split; [reflexivity|]. split; [exact (sv_one w Hw)|reflexivity]. }
  apply Forall_cons. split; [apply H0; [vm_compute; reflexivity|exact ab_01]|].
  apply Forall_cons. split; [apply H1; left|].
  apply Forall_cons. split; [apply H0; [vm_compute; reflexivity|exact ab_21]|].
  apply Forall_singleton, H1. right; left.
Qed.
Lemma ac_covers n h : ac_hs !! n = Some h → covers (statements ac_inputs n) (h_days h).
Proof.
  destruct n as [|[|n]]; intros Hh; [injection Hh as <-..|done].
  - change (covers [[0; 1]; [2; 1]] [0; 1; 2]). exact ab_covers.
  - change (covers [[0; 1]; [1]] [0; 1]). apply covers_check; by_compute.
Qed.
Definition not_alikeb (inputs : list input) : bool :=
  forallb (λ x, forallb (λ y, Nat.eqb (in_account x) (in_account y) ||
    forallb (λ tp, forallb (λ tp', negb (bool_decide (tp_date tp = tp_date tp')) ||
      forallb (λ p, forallb (λ q, negb (matches p q)) (tp_posts tp')) (tp_posts tp)) (in_trns y)) (in_trns x)) inputs) inputs.
Lemma not_alike_check inputs : not_alikeb inputs = true → not_alike inputs.
Proof.
  unfold not_alikeb. intros H x y tp tp' p q Hx Hy Hne Htp Htp' Hp Hq Hd Hs%matches_spec.
  rewrite forallb_forall in H. specialize (H x ltac:(by apply elem_of_list_In)). cbv beta in H.
  rewrite forallb_forall in H. specialize (H y ltac:(by apply elem_of_list_In)). cbv beta in H.
  apply orb_true_iff in H as [H%Nat.eqb_eq|H]; [done|].
  rewrite forallb_forall in H. specialize (H tp ltac:(by apply elem_of_list_In)). cbv beta in H.
  rewrite forallb_forall in H. specialize (H tp' ltac:(by apply elem_of_list_In)). cbv beta in H.
  rewrite bool_decide_eq_true_2 in H by done. cbn [negb orb] in H.
  rewrite forallb_forall in H. specialize (H p ltac:(by apply elem_of_list_In)). cbv beta in H.
  rewrite forallb_forall in H. specialize (H q ltac:(by apply elem_of_list_In)). cbv beta in H. by rewrite Hs in H.
Qed.
Lemma ac_not_alike : not_alike ac_inputs.
Proof. apply not_alike_check. vm_compute. reflexivity. Qed.
Lemma ac_puts J : own_journal ac_cur J → puts_on (s2l "assets:current") (as_merged (h_all ac_cur)) J.
Proof. apply ab_puts; vm_compute; reflexivity. Qed.
Lemma ac_others i h J p : i ≠ 0 → ac_hs !! i = Some h → own_journal h J → p ∈ all_posts J → p_account (pi_raw p) ≠ s2l "assets:current".
Proof.
  intros Hi Hh HJ Hp E. destruct i as [|[|i]]; [done| |done]. injection Hh as <-. cbn in HJ. rewrite HJ in Hp. clear HJ.
  assert (forallb (λ p, negb (str_eqb (p_account (pi_raw p)) (s2l "assets:current"))) (all_posts (as_merged (sv_import [0; 1]))) = true) as H by (vm_compute; reflexivity).
  rewrite forallb_forall in H. specialize (H p ltac:(by apply elem_of_list_In)). rewrite E in H. revert H. vm_compute. discriminate.
Qed.
(** The merged journal. *)
Definition ac_m : merger := foldl (λ m x, (merge reverse_order m (in_trns x)).1) merger_new ac_inputs.

(** The bus fare of 3 September is as much as the tea. *)
Definition al_hs : list history := [ac_cur; ac_sav [2]].
Definition al_inputs : list input := [Input 0 [0; 1; 2] (ab_J (ab_import [0; 1; 2])); Input 1 [2] (as_merged (sv_import [2]))].
Lemma al_inputs_ok : Forall (input_of al_hs) al_inputs.
Proof.
  apply Forall_cons. split; [|apply Forall_singleton].
  - exists ac_cur, (ab_import [0; 1; 2]). split; [reflexivity|]. split; [exact ab_all|]. apply ab_ruled. vm_compute. reflexivity.
  - exists (ac_sav [2]), (sv_import [2]). split; [reflexivity|]. split; [apply sv_one; right; right; left|reflexivity].
Qed.
Lemma al_covers n h : al_hs !! n = Some h → covers (statements al_inputs n) (h_days h).
Proof.
  destruct n as [|[|n]]; intros Hh; [injection Hh as <-..|done].
  - change (covers [[0; 1; 2]] [0; 1; 2]). apply covers_check; by_compute.
  - change (covers [[2]] [2]). apply covers_check; by_compute.
Qed.
Definition al_m1 : merger := (merge default_order merger_new (ab_J (ab_import [0; 1; 2]))).1.
Definition al_m : merger := (merge default_order al_m1 (as_merged (sv_import [2]))).1.
Definition al_out : list transaction_postings := rok (build default_order al_m) [].
Lemma al_run : clean_run merger_new (zip [default_order; default_order] (in_trns <$> al_inputs)) al_m.
Proof.
  change (zip [default_order; default_order] (in_trns <$> al_inputs)) with
    [(default_order, ab_J (ab_import [0; 1; 2])); (default_order, as_merged (sv_import [2]))].
  econstructor; [exact default_order_ok|apply merge_eq; by_compute|]. change (merge _ _ (ab_J _)).1 with al_m1.
  econstructor; [exact default_order_ok|apply merge_eq; by_compute|]. constructor.
Qed.
Lemma al_built : build default_order al_m = Ok al_out.
Proof. vm_compute. reflexivity. Qed.
Definition al_tea : transaction_postings := default ex_t1 (last al_out).
Lemma al_tea_in : al_tea ∈ al_out.
Proof.
  unfold al_tea. assert (is_Some (last al_out)) as [tp E] by (vm_compute; eexists; reflexivity). rewrite E. cbn [default].
  apply last_Some in E as [l ->]. apply elem_of_app. right. left.
Qed.
Definition balances_in (c : commodity) (tps : list transaction_postings) : bool :=
  forallb (λ tp, Qeq_bool (posts_value c (tp_posts tp)) 0) tps.
Lemma balances_in_spec c tps tp : balances_in c tps = true → tp ∈ tps → (posts_value c (tp_posts tp) == 0)%Q.
Proof. intros H Hin. unfold balances_in in H. rewrite forallb_forall in H. apply Qeq_bool_iff, H. by apply elem_of_list_In. Qed.
Lemma al_balance x tp : x ∈ al_inputs → tp ∈ in_trns x → (posts_value GBP (tp_posts tp) == 0)%Q.
Proof.
  intros Hx. repeat (apply elem_of_cons in Hx as [->|Hx]; [apply balances_in_spec; vm_compute; reflexivity|]). by apply elem_of_nil in Hx.
Qed.

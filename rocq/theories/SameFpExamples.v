(** Imports used beside C125. *)
From Verif Require Import MergeClaims.
From Verif Require Import Base Types SpecBase BaseProofs CommentModel MergeModel FingerprintModel NwCsvModel TzModel PaypalModel OcrModel PdfModel
  CommentClaims FingerprintClaims ImportClaims ImportProofs ImportRows ImportLaws ImportPaypal TestsImport ImportExamples
  PdfClaims PdfTable PdfFold PdfLaws PdfLaws2 PdfExamples SameFpClaims SameFp.
Local Open Scope nat_scope.

(** One payment in two statements, described differently. *)
Definition six_head : list csv_record :=
  [ [s2l "Account Name:"; s2l "Current"]; [s2l "Account Balance:"; gbp "150.00"]; [s2l "Available Balance:"; gbp "150.00"];
    [s2l "Date"; s2l "Transaction type"; s2l "Description"; s2l "Paid out"; s2l "Paid in"; s2l "Balance"] ].
Definition six_row (desc : string) : csv_record := [s2l "01 Sep 2021"; s2l "Card"; s2l desc; gbp "2.50"; []; gbp "150.00"].
Definition six_record (desc : string) : nw_record :=
  Six (RecordSix (2021%Z, 9%N, 1%N) (s2l "Card") (s2l desc) (Some (Amount (Dec false 2 250) GBP)) None (Amount (Dec false 2 15000) GBP)).
Definition six_opts (legacy : bool) : nw_opts := NwOpts legacy (NsFixed (s2l "cur")).
Definition six_trns (legacy : bool) (desc : string) : list transaction :=
  snd (rok (nw_csv_import ex_dates default_order (six_opts legacy) (six_head ++ [six_row desc])) ([], [])).
Definition a_trn (ts : list transaction) (k : nat) : transaction := default (Transaction None (0%Z, 0%N, 0%N) None None None [] []) (ts !! k).
Definition a_post (t : transaction) (n : nat) : posting := default (Posting [] Real None None None None) (t_postings t !! n).
Lemma six_statement rows rs : rmapM (λ r, rmap Six (de_six ex_dates r)) rows = Ok rs → statement_reads ex_dates (six_head ++ rows) (s2l "Current") rs.
Proof.
  intros H. eexists [], _, _, SixColumns, rows. split; [reflexivity|].
  revert rs H. induction rows as [|r rows IH]; intros rs; cbn [rmapM].
  - intros E. apply Ok_inj in E as <-. constructor.
  - intros (x & Hx & (xs & Hxs & E)%rbind_ok)%rbind_ok. apply Ok_inj in E as <-. constructor; [by apply read_row_six|by apply IH].
Qed.
Lemma no_share_check p q : forallb (λ f, negb (is_fingerprint f && bool_decide (f ∈ tags (pi_comment q)))) (elements (tags (pi_comment p))) = true → ¬ share_fp p q.
Proof.
  intros H (f & [Hf Hp] & [_ Hq]). unfold has_tag in Hp, Hq. apply MergeProofs.is_fingerprint_spec in Hf. rewrite forallb_forall in H.
  apply elem_of_elements, elem_of_list_In, H in Hp. rewrite Hf, bool_decide_eq_true_2 in Hp; done.
Qed.
Lemma six_same d d' : same_but_description (six_record d) (six_record d').
Proof.
  assert (∀ d, adds (six_record d) (Amount (Dec true 2 250) GBP)) as H.
  { intros e. right. exists false, 2%N, 250%N, GBP. split; [reflexivity|]. split; reflexivity. }
  unfold six_record. eexists _, _, _. split; [reflexivity|]. split; [reflexivity|]. split; [reflexivity|]. split; [reflexivity|]. split; [reflexivity|].
  exact (conj (H d) (H d')).
Qed.
Lemma pp_same_refl v : pp_same_hashed v v.
Proof. by split_and!. Qed.
Lemma pp_ex_at l n : n < 8 → pp_ex l !! 0 = Some (a_trn (pp_ex l) 0) ∧ t_postings (a_trn (pp_ex l) 0) !! n = Some (a_post (a_trn (pp_ex l) 0) n).
Proof.
  intros Hn. destruct (c50 _ _ _ _ _ _ _ (proj1 (pp_ex_imported l))) as (gs & _ & Hu & HF). rewrite <- (Hu _ pp_ex_runs) in HF. clear gs Hu.
  destruct (Forall2_lookup_l _ _ _ 0 (pp_ex_t1, take 4 pp_ex_rows) HF eq_refl) as (t & Ht & HG).
  destruct HG as (_ & _ & Hl & _). assert (a_trn (pp_ex l) 0 = t) as -> by (unfold a_trn; by rewrite Ht). split; [done|].
  unfold a_post. destruct (t_postings t !! n) as [p|] eqn:E; [done|]. apply lookup_ge_None in E. exfalso.
  assert (2 * length (take 4 pp_ex_rows) = 8) as H8 by reflexivity. cbn [snd] in Hl. lia.
Qed.

(** C89: what a cut within a day does to fingerprints. *)
From Verif Require Import MergeClaims.
From Verif Require Import Base Types SpecBase CommentModel MergeModel FingerprintModel NwCsvModel
  CommentClaims FingerprintClaims ImportClaims BaseProofs TestsImport ImportExamples StatementClaims SameFpClaims SameFpExamples CutClaims Cut.
Local Open Scope nat_scope.

(** A statement that begins at row [c] of another one gives the postings of a row
    fingerprints they have in the other one too, exactly if the cut does not go
    through the rows of its date up to it. *)
Theorem C89_cut_renumbers pd o name rs c ts ts' j t t' n p q r : parser_ok pd →
  row_statement pd o name rs ts → row_statement pd o name (drop c rs) ts' → rs !! (c + j) = Some r →
  ts !! (c + j) = Some t → ts' !! j = Some t' → t_postings t !! n = Some p → t_postings t' !! n = Some q →
  (¬ day_cut (rec_date <$> rs) c (c + j) → share_fp (posting_internal_of p) (posting_internal_of q)) ∧
  (day_cut (rec_date <$> rs) c (c + j) → share_fp (posting_internal_of p) (posting_internal_of q) →
    row_messages_collide r (day_number (rec_date <$> rs) (c + j)) r (day_number (rec_date <$> drop c rs) j)).
Proof. exact (cut_renumbers pd o name rs c ts ts' j t t' n p q r). Qed.
Print Assumptions C89_cut_renumbers.
(** The second of two payments of a day, and one of the next day. *)
Definition cut_trns : list transaction := snd (rok (nw_csv_import ex_dates default_order ex_opts (ex_head ++ drop 1 ex_rows)) ([], [])).
Example C89_cut_ex : row_statement ex_dates ex_opts (s2l "Current") ex_records ex_trns ∧
  row_statement ex_dates ex_opts (s2l "Current") (drop 1 ex_records) cut_trns ∧
  day_cut (rec_date <$> ex_records) 1 1 ∧ ¬ day_cut (rec_date <$> ex_records) 1 2 ∧
  let p k := posting_internal_of (a_post (a_trn ex_trns k) 0) in let q k := posting_internal_of (a_post (a_trn cut_trns k) 0) in
  ¬ share_fp (p 1) (q 0) ∧ share_fp (p 0) (q 0) ∧ share_fp (p 2) (q 1).
Proof.
  assert (row_statement ex_dates ex_opts (s2l "Current") ex_records ex_trns) as H1.
  { exists default_order, (ex_head ++ ex_rows), (s2l "cur"). exact (conj default_order_ok (conj (proj1 ex_fields) (conj ex_statement (proj1 ex_imported)))). }
  assert (row_statement ex_dates ex_opts (s2l "Current") (drop 1 ex_records) cut_trns) as H2.
  { exists default_order, (ex_head ++ drop 1 ex_rows), (s2l "cur"). split; [exact default_order_ok|]. split; [apply fields_ok_check; vm_compute; reflexivity|].
    split; [apply ex_reads; vm_compute; reflexivity|vm_compute; reflexivity]. }
  assert (¬ day_cut (rec_date <$> ex_records) 1 2) as H3.
  { intros [_ H]. specialize (H 0 ltac:(lia) ltac:(lia)). revert H. vm_compute. discriminate. }
  assert (day_cut (rec_date <$> ex_records) 1 1) as H4.
  { split; [lia|]. intros [|[|i]] Hi Hi'; [vm_compute; reflexivity|reflexivity|lia]. }
  refine (conj H1 (conj H2 (conj H4 (conj H3 _)))). cbv zeta. refine (conj _ (conj _ _)).
  - apply no_share_check. vm_compute. reflexivity.
  - apply (share_check _ _ (tag (builder_build (Builder (five_message (RecordFive (2021%Z, 9%N, 1%N) (s2l "COFFEE") []
      (Some (Amount (Dec false 2 250) GBP)) None) 0 Self) (s2l "nwcsv5") 1 (s2l "cur"))))); vm_compute; reflexivity.
  - refine (proj1 (C89_cut_renumbers ex_dates ex_opts (s2l "Current") ex_records 1 ex_trns cut_trns 1 (a_trn ex_trns 2) (a_trn cut_trns 1) 0 _ _ (ex_record 2 "TEA" 120)
      ex_dates_ok H1 H2 _ _ _ _ _) H3); vm_compute; reflexivity.
Qed.

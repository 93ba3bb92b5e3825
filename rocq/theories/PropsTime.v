(** Points in time (C117).  The vocabulary is in PdfClaims.v (the calendar),
    TimeClaims.v and ImportClaims.v. *)
From Verif Require Import MergeClaims.
From Verif Require Import Base Types SpecBase BaseProofs CommentModel FingerprintModel NwCsvModel PaypalModel TzModel
  CommentClaims FingerprintClaims ImportClaims OcrModel PdfModel PdfClaims PdfTable CommentExamples MergeExamples TestsImport ImportExamples TimeClaims TimeProofs.

(** C117: the instant of a row is when the clock of its time zone shows its date and
    time, and that is one instant. *)
Theorem C117_row_time db r i : valid_day (pr_date r) →
  row_instant db r i ↔ ∃ o, abbr_to_tz db (pr_time_zone r) = Some o ∧ shows o (pr_date r) (pr_time r) i.
Proof. exact (row_time db r i). Qed.
Print Assumptions C117_row_time.
(** So the rows of each transaction are those of one instant, whatever zones they are
    given in; its date is the date at this instant in the zone chosen for the output. *)
Theorem C117_transactions ho legacy tz db ns rows ts : pp_import ho legacy tz db ns rows = Ok ts → (∀ r, r ∈ rows → valid_day (pr_date r)) →
  ∃ gs, runs db rows gs ∧ Forall2 (group_result tz) gs ts ∧
    ∀ t g r, (t, g) ∈ gs → r ∈ g → ∃ o, abbr_to_tz db (pr_time_zone r) = Some o ∧ shows o (pr_date r) (pr_time r) t.
Proof. exact (groups_times ho legacy tz db ns rows ts). Qed.
Print Assumptions C117_transactions.
(** A clock shows one date and time at an instant: different times in one zone are
    different instants. *)
Theorem C117_one_time o d t d' t' i : time_of_day t → time_of_day t' → shows o d t i → shows o d' t' i → d' = d ∧ t' = t.
Proof. exact (shows_once o d t d' t' i). Qed.
Print Assumptions C117_one_time.
(** The numbers of days are well defined: each date of the calendar has one, and no
    two the same. *)
Theorem C117_day_numbers : (∀ d, valid_day d → ∃ n, day_number d n) ∧
  (∀ d n n', day_number d n → day_number d n' → n' = n) ∧ (∀ d d' n, day_number d n → day_number d' n → d' = d).
Proof. exact number_once. Qed.
Print Assumptions C117_day_numbers.

(** Rows of an export, at 2019-01-01 01:23:45 and later; and one instant in two zones:
    the last night of a leap February in London is the first of March in Rome. *)
Example C117_ex : (∀ r, r ∈ pp_ex_rows → valid_day (pr_date r) ∧ time_of_day (pr_time r)) ∧
  pp_import default_order false test_tz ex_db (s2l "paypal") pp_ex_rows = Ok (pp_ex false) ∧
  shows 0 (2019%Z, 1%N, 1%N) (1, 23, 45, 0)%N pp_ex_t1 ∧
  ∃ i, shows 0 (2000%Z, 2%N, 29%N) (23, 30, 0, 0)%N i ∧ shows 3600 (2000%Z, 3%N, 1%N) (0, 30, 0, 0)%N i.
Proof.
  assert (∀ d, (1 <=? d.2)%N && (d.2 <=? month_days d.1.1 d.1.2)%N = true → valid_day d) as Hv.
  { intros [[y m] n] H. apply andb_true_iff in H as [H1 H2]. apply valid_date_days. by rewrite <- N.leb_le, <- (N.leb_le n). }
  split; [|split; [apply (pp_ex_imported false)|split]].
  - assert (Forall (λ r, ((1 <=? (pr_date r).2)%N && ((pr_date r).2 <=? month_days (pr_date r).1.1 (pr_date r).1.2)%N = true) ∧
      let '(h, m, s, n) := pr_time r in (h <? 24)%N = true ∧ (m <? 60)%N = true ∧ (s <? 60)%N = true) pp_ex_rows) as H by by_compute.
    rewrite Forall_forall in H. intros r [H1 H2]%H. split; [by apply Hv|]. destruct (pr_time r) as [[[h m] s] n]. cbn. by rewrite <- !N.ltb_lt.
  - apply local_shows; [apply Hv; reflexivity|]. vm_compute. reflexivity.
  - exists (951867000%Z, 0%N). split; (apply local_shows; [apply Hv; reflexivity|]); vm_compute; reflexivity.
Qed.

(** C43-C52, C62, C63, C69-C71: the CSV importers. *)
From Verif Require Import MergeClaims.
From Verif Require Import Base Types SpecBase CommentModel MergeModel Sha1 FingerprintModel NwCsvModel TzModel PaypalModel
  CommentClaims FingerprintClaims ImportClaims ImportRows ImportLaws ImportMoney ImportPaypal TzLaws BaseProofs CommentExamples TestsImport ImportExamples.
From Coq Require Import QArith.
Local Open Scope nat_scope.

(** C43: two postings sharing a fingerprint give an explicit SHA-1 collision
    between two hashed messages. *)
Theorem C43_fingerprints_unique pd ho o records ns ts name rs i j p q :
  hash_order_ok ho → parser_ok pd → fields_ok records →
  nw_csv_import pd ho o records = Ok (ns, ts) →
  statement_reads pd records name rs → contiguous (rec_date <$> rs) →
  all_posts (as_merged ts) !! i = Some p → all_posts (as_merged ts) !! j = Some q → i ≠ j →
  share_fp p q → statement_collides rs.
Proof. exact (c43 pd ho o records ns ts name rs i j p q). Qed.
Print Assumptions C43_fingerprints_unique.
Example C43_ex : parser_ok ex_dates ∧ fields_ok (ex_head ++ ex_rows) ∧
  nw_csv_import ex_dates default_order ex_opts (ex_head ++ ex_rows) = Ok (s2l "cur", ex_trns) ∧
  statement_reads ex_dates (ex_head ++ ex_rows) (s2l "Current") ex_records ∧
  contiguous (rec_date <$> ex_records) ∧ length (all_posts (as_merged ex_trns)) = 6 ∧
  ¬ statement_collides ex_records ∧ ex_records !! 0 = ex_records !! 1.
Proof.
  split_and!; [exact ex_dates_ok|apply ex_fields|apply ex_imported|exact ex_statement|exact ex_contiguous|by_compute|
    exact ex_no_collision|reflexivity].
Qed.
(** Without contiguous dates equal rows get equal fingerprints. *)
Theorem C43_contiguity_needed : ∃ pd records ns ts name rs p q, parser_ok pd ∧ fields_ok records ∧
  nw_csv_import pd default_order ex_opts records = Ok (ns, ts) ∧ statement_reads pd records name rs ∧
  all_posts (as_merged ts) !! 0 = Some p ∧ all_posts (as_merged ts) !! 4 = Some q ∧ share_fp p q.
Proof.
  exists ex_dates, (ex_head ++ ex_bad_rows), (s2l "cur"), ex_bad_trns, (s2l "Current"), ex_bad_records.
  destruct ex_bad_shared as (p & q & Hp & Hq & H). exists p, q.
  exact (conj ex_dates_ok (conj (proj2 ex_fields) (conj ex_bad_imported (conj ex_bad_statement (conj Hp (conj Hq H)))))).
Qed.
Print Assumptions C43_contiguity_needed.

(** C44: [hd] are the three lines of the preamble and the column headers. *)
Theorem C44_prefix pd ho o hd xs ys ns ts : length hd = 4 →
  nw_csv_import pd ho o (hd ++ xs ++ ys) = Ok (ns, ts) →
  ∃ ts1 ts2, ts = ts1 ++ ts2 ∧ length ts1 = length xs ∧ nw_csv_import pd ho o (hd ++ xs) = Ok (ns, ts1).
Proof. exact (import_prefix pd ho o hd xs ys ns ts). Qed.
Print Assumptions C44_prefix.
Theorem C44_append pd ho o hd xs ys ns ts1 ts2 : length hd = 4 →
  nw_csv_import pd ho o (hd ++ xs) = Ok (ns, ts1) → nw_csv_import pd ho o (hd ++ ys) = Ok (ns, ts2) →
  (∀ t1 t2, last ts1 = Some t1 → head ts2 = Some t2 → t_date t1 ≠ t_date t2) →
  nw_csv_import pd ho o (hd ++ xs ++ ys) = Ok (ns, ts1 ++ ts2).
Proof. exact (import_append pd ho o hd xs ys ns ts1 ts2). Qed.
Print Assumptions C44_append.
Example C44_ex : length ex_head = 4 ∧ ex_rows = take 2 ex_rows ++ drop 2 ex_rows ∧
  rmap (λ x, length (snd x)) (nw_csv_import ex_dates default_order ex_opts (ex_head ++ take 2 ex_rows)) = Ok 2 ∧
  rmap (λ x, length (snd x)) (nw_csv_import ex_dates default_order ex_opts (ex_head ++ drop 2 ex_rows)) = Ok 1 ∧
  nw_csv_import ex_dates default_order ex_opts (ex_head ++ take 2 ex_rows ++ drop 2 ex_rows) = Ok (s2l "cur", ex_trns).
Proof. split_and!; by_compute. Qed.

(** C45 *)
Theorem C45_nationwide_balanced pd ho o records ns ts t :
  nw_csv_import pd ho o records = Ok (ns, ts) → t ∈ ts → balanced t.
Proof. exact (c45_nw pd ho o records ns ts t). Qed.
Print Assumptions C45_nationwide_balanced.
Theorem C45_paypal_balanced ho legacy tz db ns rows ts t :
  pp_import ho legacy tz db ns rows = Ok ts → t ∈ ts → balanced t.
Proof. exact (c45_pp ho legacy tz db ns rows ts t). Qed.
Print Assumptions C45_paypal_balanced.
(** Two currencies in one transaction. *)
Example C45_ex : pp_import default_order false test_tz ex_db (s2l "paypal") pp_ex_rows = Ok (pp_ex false) ∧
  (λ t, (λ p, (λ a, (a_commodity (pa_amount a), d_signed (a_quantity (pa_amount a)))) <$> p_amount p) <$> t_postings t) <$> head (pp_ex false) =
  Some (let c s z := Some (Commodity (s2l s) PosLeft, z) in
    [c "USD" (-5); c "USD" 5; c "GBP" 432; c "GBP" (-432); c "GBP" (-432); c "GBP" 432; c "USD" 5; c "USD" (-5)]%Z).
Proof. split; [apply (pp_ex_imported false)|by_compute]. Qed.

(** C46 *)
Theorem C46_nationwide_accounts pd ho o records ns ts t : hash_order_ok ho →
  nw_csv_import pd ho o records = Ok (ns, ts) → t ∈ ts →
  ∃ own peer, t_postings t = [own; peer] ∧ sides own peer.
Proof. exact (c46_nw pd ho o records ns ts t). Qed.
Print Assumptions C46_nationwide_accounts.
Theorem C46_paypal_accounts ho legacy tz db ns rows ts t i own peer : hash_order_ok ho →
  pp_import ho legacy tz db ns rows = Ok ts → t ∈ ts →
  t_postings t !! (2 * i) = Some own → t_postings t !! (2 * i + 1) = Some peer → sides own peer.
Proof. exact (c46_pp ho legacy tz db ns rows ts t i own peer). Qed.
Print Assumptions C46_paypal_accounts.
Example C46_ex : (λ t, p_account <$> t_postings t) <$> take 1 ex_trns = [[s2l "assets:unknown"; s2l "expenses:unknown"]] ∧
  (λ t, p_account <$> t_postings t) <$> take 1 (pp_ex false) =
    [[s2l "assets:unknown"; s2l "expenses:unknown"; s2l "assets:unknown"; s2l "income:unknown";
      s2l "assets:unknown"; s2l "expenses:unknown"; s2l "assets:unknown"; s2l "income:unknown"]].
Proof. split; by_compute. Qed.

(** C47: as stated it is false. *)
Theorem C47_money_exact_refuted : ∃ s q a, denotes s q ∧ gbp_value s = Ok a ∧ ¬ (dec_value (a_quantity a) == q)%Q.
Proof.
  exists (gbp "1.5"), (text_value (s2l "1") (s2l "5")), (Amount (Dec false 2 105) GBP). split_and!.
  - exists (s2l "1"), (s2l "5"). split_and!; [split; [done|]..|by left].
    + intros c ->%elem_of_list_singleton. done.
    + intros c ->%elem_of_list_singleton. done.
  - by_compute.
  - by vm_compute.
Qed.
Print Assumptions C47_money_exact_refuted.
Example C47_ex : gbp_value (gbp "1.123") = Ok (Amount (Dec false 2 223) GBP) ∧
  gbp_value (MINUS :: gbp "5.00") = Ok (Amount (Dec false 2 500) GBP) ∧
  gbp_value (gbp "-5.00") = Ok (Amount (Dec true 2 500) GBP) ∧ gbp_value (gbp "1,234.00") = Err EBadAmount ∧
  gbp_value (s2l "x" ++ gbp "5.00" ++ s2l "1y") = Ok (Amount (Dec false 2 501) GBP).
Proof. split_and!; by_compute. Qed.

(** C70: what is read of any text, and when it is the number written. *)
Theorem C70_money_read s a : gbp_value s = Ok a →
  ∃ pre neg P F post, s = pre ++ POUND :: sign_text neg ++ P ++ DOT :: F ++ post ∧ digits P ∧ digits F ∧
    a = Amount (Dec neg 2 (number P * 100 + number F)) GBP.
Proof. exact (gbp_value_read s a). Qed.
Print Assumptions C70_money_read.
Theorem C70_money_accepted neg P F : digits P → digits F → (number P * 100 + number F ≤ 2 ^ 63 - 1)%N →
  gbp_value (POUND :: sign_text neg ++ P ++ DOT :: F) = Ok (Amount (Dec neg 2 (number P * 100 + number F)) GBP).
Proof. exact (gbp_value_plain neg P F). Qed.
Print Assumptions C70_money_accepted.
Theorem C70_money_exact neg P F a : digits P → digits F → gbp_value (POUND :: sign_text neg ++ P ++ DOT :: F) = Ok a →
  (dec_value (a_quantity a) == signed neg (text_value P F))%Q ↔ length F = 2 ∨ number F = 0%N.
Proof. exact (read_exact neg P F a). Qed.
Print Assumptions C70_money_exact.
(** A minus sign before the pound sign is ignored. *)
Theorem C70_minus_before_pound P F : digits P → digits F →
  gbp_value (MINUS :: POUND :: P ++ DOT :: F) = gbp_value (POUND :: P ++ DOT :: F).
Proof. exact (gbp_value_minus P F). Qed.
Print Assumptions C70_minus_before_pound.
Example C70_ex : gbp_value (gbp "12.34") = Ok (Amount (Dec false 2 1234) GBP) ∧
  gbp_value (gbp "-0.05") = Ok (Amount (Dec true 2 5) GBP) ∧ gbp_value (gbp "7.0") = Ok (Amount (Dec false 2 700) GBP).
Proof. split_and!; by_compute. Qed.

(** C48 *)
Theorem C48_rows pd ho o records ns ts name rs : nw_csv_import pd ho o records = Ok (ns, ts) →
  statement_reads pd records name rs → Forall2 row_result rs ts.
Proof. exact (c48 pd ho o records ns ts name rs). Qed.
Print Assumptions C48_rows.
Theorem C48_fails pd ho o records name rs r : statement_reads pd records name rs → r ∈ rs →
  (paid_in r = None ↔ paid_out r = None) → ∀ out, nw_csv_import pd ho o records ≠ Ok out.
Proof. exact (c48_fails pd ho o records name rs r). Qed.
Print Assumptions C48_fails.
Theorem C48_accepts pd ho o records name rs ns : balances_read records → statement_reads pd records name rs →
  make_namespace (nw_fp_ns o) name = Ok ns → fp_part ns → (∀ r, r ∈ rs → one_side r) →
  (Z.of_nat (length rs) < 2147483648)%Z → ∃ ts, nw_csv_import pd ho o records = Ok (ns, ts).
Proof. exact (c48_accepts pd ho o records name rs ns). Qed.
Print Assumptions C48_accepts.
Theorem C48_accepts_only pd ho o records ns ts : nw_csv_import pd ho o records = Ok (ns, ts) →
  ∃ name rs, balances_read records ∧ statement_reads pd records name rs ∧ make_namespace (nw_fp_ns o) name = Ok ns ∧
    (∀ r, r ∈ rs → one_side r) ∧ (rs ≠ [] → fp_part ns).
Proof. exact (c48_only pd ho o records ns ts). Qed.
Print Assumptions C48_accepts_only.
Example C48_ex : statement_reads ex_dates (ex_head ++ ex_rows) (s2l "Current") ex_records ∧
  nw_csv_import ex_dates default_order ex_opts (ex_head ++ ex_rows) = Ok (s2l "cur", ex_trns) ∧
  rmap fst (nw_csv_import ex_dates default_order ex_opts (ex_head ++ [[s2l "01 Sep 2021"; s2l "X"; []; []; []]])) = Err EPaidInOut ∧
  rmap fst (nw_csv_import ex_dates default_order ex_opts
    (ex_head ++ ex_rows ++ [[s2l "01 Sep 2021"; s2l "X"; []; gbp "1.00"; gbp "1.00"]])) = Err EPaidInOut.
Proof. split_and!; [exact ex_statement|apply ex_imported|by_compute|by_compute]. Qed.

(** C49: false for PayPal without legacy fingerprints. *)
Theorem C49_nationwide_fingerprinted pd ho o records ns ts t p : hash_order_ok ho →
  nw_csv_import pd ho o records = Ok (ns, ts) → t ∈ ts → p ∈ t_postings t → fingerprinted p.
Proof. exact (c49_nw pd ho o records ns ts t p). Qed.
Print Assumptions C49_nationwide_fingerprinted.
Theorem C49_paypal_refuted : ∃ rows ts t p, rows_ok rows ∧
  pp_import default_order false test_tz ex_db (s2l "paypal") rows = Ok ts ∧
  t ∈ ts ∧ p ∈ t_postings t ∧ ¬ fingerprinted p ∧
  ∃ m e, merge default_order merger_new (as_merged ts) = (m, Err e).
Proof.
  destruct pp_ex_missing as (t & p & Ht & Hp & H). exists pp_ex_rows, (pp_ex false), t, p.
  exact (conj pp_ex_ok (conj (proj1 (pp_ex_imported false)) (conj Ht (conj Hp (conj H pp_ex_not_merged))))).
Qed.
Print Assumptions C49_paypal_refuted.
Example C49_ex : nw_csv_import ex_dates default_order ex_opts (ex_head ++ ex_rows) = Ok (s2l "cur", ex_trns) ∧ length ex_trns = 3.
Proof. exact ex_imported. Qed.

(** C71: own postings always have one, peer postings (odd positions) with legacy
    fingerprints. *)
Theorem C71_paypal_fingerprinted ho legacy tz db ns rows ts t n p : hash_order_ok ho →
  pp_import ho legacy tz db ns rows = Ok ts → t ∈ ts → t_postings t !! n = Some p →
  legacy = true ∨ Nat.even n = true → fingerprinted p.
Proof. exact (c49_pp ho legacy tz db ns rows ts t n p). Qed.
Print Assumptions C71_paypal_fingerprinted.
Example C71_ex : pp_import default_order true test_tz ex_db (s2l "paypal") pp_ex_rows = Ok (pp_ex true) ∧ length (pp_ex true) = 2.
Proof. exact (pp_ex_imported true). Qed.

(** C50 *)
Theorem C50_groups ho legacy tz db ns rows ts : pp_import ho legacy tz db ns rows = Ok ts →
  ∃ gs, runs db rows gs ∧ (∀ gs', runs db rows gs' → gs' = gs) ∧ Forall2 (group_result tz) gs ts.
Proof. exact (c50 ho legacy tz db ns rows ts). Qed.
Print Assumptions C50_groups.
Theorem C50_nameless_group_fails ho legacy tz db ns rows gs t g : runs db rows gs → (t, g) ∈ gs →
  (∀ r, r ∈ g → pr_name r = None) → ∀ ts, pp_import ho legacy tz db ns rows ≠ Ok ts.
Proof. exact (c50_fails ho legacy tz db ns rows gs t g). Qed.
Print Assumptions C50_nameless_group_fails.
Theorem C50_accepts ho legacy tz db ns rows gs : fp_part ns →
  (∀ r, r ∈ rows → is_Some (abbr_to_tz db (pr_time_zone r))) → runs db rows gs →
  (∀ t g, (t, g) ∈ gs → ∃ n, first_name g n) → ∃ ts, pp_import ho legacy tz db ns rows = Ok ts.
Proof. exact (c50_succeeds ho legacy tz db ns rows gs). Qed.
Print Assumptions C50_accepts.
Example C50_ex : runs ex_db pp_ex_rows pp_ex_groups ∧ length <$> pp_ex_groups.*2 = [4; 4] ∧
  pp_import default_order false test_tz ex_db (s2l "paypal") pp_ex_rows = Ok (pp_ex false) ∧
  t_description <$> pp_ex false = [s2l "Somecompany Inc."; s2l "Othercompany Ltd."] ∧
  rmap length (pp_import default_order false test_tz ex_db (s2l "paypal") (drop 1 pp_ex_rows)) = Err ENoDescription.
Proof. split_and!; [exact pp_ex_runs|by_compute|apply (pp_ex_imported false)|by_compute|by_compute]. Qed.

(** C51 *)
Theorem C51_unique_in_transaction ho legacy tz db ns rows ts gs t i j p q : hash_order_ok ho → rows_ok rows →
  pp_import ho legacy tz db ns rows = Ok ts → runs db rows gs → t ∈ ts →
  t_postings t !! i = Some p → t_postings t !! j = Some q → i ≠ j →
  share_fp (posting_internal_of p) (posting_internal_of q) → groups_collide gs.
Proof. exact (c51_group ho legacy tz db ns rows ts gs t i j p q). Qed.
Print Assumptions C51_unique_in_transaction.
(** In the whole import if the groups have different times. *)
Theorem C51_unique ho legacy tz db ns rows ts gs i j p q : hash_order_ok ho → rows_ok rows →
  pp_import ho legacy tz db ns rows = Ok ts → runs db rows gs → NoDup (gs.*1) →
  all_posts (as_merged ts) !! i = Some p → all_posts (as_merged ts) !! j = Some q → i ≠ j →
  share_fp p q → groups_collide gs.
Proof. exact (c51_all ho legacy tz db ns rows ts gs i j p q). Qed.
Print Assumptions C51_unique.
(** Rows that differ only in status and receipt id. *)
Theorem C51_stable ho ho' legacy tz tz' db ns rows rows' ts ts' : hash_order_ok ho → hash_order_ok ho' →
  rows_ok rows → rows_ok rows' → Forall2 pp_same_hashed rows rows' →
  pp_import ho legacy tz db ns rows = Ok ts → pp_import ho' legacy tz' db ns rows' = Ok ts' →
  Forall2 (λ t t', Forall2 same_fps (t_postings t) (t_postings t')) ts ts'.
Proof. exact (c51_stable ho ho' legacy tz tz' db ns rows rows' ts ts'). Qed.
Print Assumptions C51_stable.
Example C51_ex : rows_ok pp_ex_rows ∧ runs ex_db pp_ex_rows pp_ex_groups ∧ NoDup (pp_ex_groups.*1) ∧ ¬ groups_collide pp_ex_groups ∧
  pp_import default_order true test_tz ex_db (s2l "paypal") pp_ex_rows = Ok (pp_ex true).
Proof. split_and!; [exact pp_ex_ok|exact pp_ex_runs|by_compute|exact pp_ex_no_collision|apply (pp_ex_imported true)]. Qed.

(** C52 *)
Theorem C52_nationwide_merges pd ho o records ns ts name rs ho1 ho2 :
  hash_order_ok ho → hash_order_ok ho1 → hash_order_ok ho2 → parser_ok pd → fields_ok records →
  nw_csv_import pd ho o records = Ok (ns, ts) →
  statement_reads pd records name rs → contiguous (rec_date <$> rs) → ¬ statement_collides rs →
  ∃ m, merge ho1 merger_new (as_merged ts) = (m, Ok []) ∧
       build ho2 m = Ok (stable_sort (by_key tp_date) (as_merged ts)).
Proof. exact (c52 pd ho o records ns ts name rs ho1 ho2). Qed.
Print Assumptions C52_nationwide_merges.
Example C52_ex : contiguous (rec_date <$> ex_records) ∧ ¬ statement_collides ex_records ∧
  statement_reads ex_dates (ex_head ++ ex_rows) (s2l "Current") ex_records.
Proof. exact (conj ex_contiguous (conj ex_no_collision ex_statement)). Qed.

(** C69 *)
Theorem C69_paypal_merges ho tz db ns rows ts gs ho1 ho2 :
  hash_order_ok ho → hash_order_ok ho1 → hash_order_ok ho2 → rows_ok rows →
  pp_import ho true tz db ns rows = Ok ts → runs db rows gs → NoDup (gs.*1) → ¬ groups_collide gs →
  ∃ m, merge ho1 merger_new (as_merged ts) = (m, Ok []) ∧
       build ho2 m = Ok (stable_sort (by_key tp_date) (as_merged ts)).
Proof. exact (c69 ho tz db ns rows ts gs ho1 ho2). Qed.
Print Assumptions C69_paypal_merges.
Example C69_ex : ∃ m, merge default_order merger_new (as_merged (pp_ex true)) = (m, Ok []) ∧
  build reverse_order m = Ok (stable_sort (by_key tp_date) (as_merged (pp_ex true))).
Proof.
  exact (C69_paypal_merges default_order test_tz ex_db (s2l "paypal") pp_ex_rows (pp_ex true) pp_ex_groups default_order reverse_order
    default_order_ok default_order_ok reverse_order_ok pp_ex_ok (proj1 (pp_ex_imported true)) pp_ex_runs ltac:(by_compute) pp_ex_no_collision).
Qed.

(** C62 *)
Theorem C62_utc_offsets s secs : parse_utc_offset s = Ok secs ↔ utc_offset s secs.
Proof. exact (offset_spec s secs). Qed.
Print Assumptions C62_utc_offsets.
Theorem C62_no_panic s : parse_utc_offset s ≠ Panic.
Proof. exact (offset_no_panic s). Qed.
Print Assumptions C62_no_panic.
Example C62_ex : parse_utc_offset (s2l "UTC+05:30") = Ok 19800%Z ∧ parse_utc_offset (s2l "UTC-08") = Ok (-28800)%Z ∧
  parse_utc_offset (s2l "UTC+24") = Err EBadOffset ∧ parse_utc_offset (s2l "UTC+01:60") = Err EBadOffset ∧
  parse_utc_offset (s2l "UTC+1") = Err EBadOffset.
Proof. split_and!; by_compute. Qed.

(** C63 *)
Theorem C63_database rows db : tz_from_rows rows = Ok db ↔
  NoDup rows.*1 ∧ (∀ a s, (a, s) ∈ rows → ∃ o, utc_offset s o) ∧
  ∀ a o, abbr_to_tz db a = Some o ↔ ∃ s, (a, s) ∈ rows ∧ utc_offset s o.
Proof. exact (tz_db_spec rows db). Qed.
Print Assumptions C63_database.
Theorem C63_loads rows : NoDup rows.*1 → (∀ a s, (a, s) ∈ rows → ∃ o, utc_offset s o) →
  ∃ db, tz_from_rows rows = Ok db.
Proof. exact (tz_db_exists rows). Qed.
Print Assumptions C63_loads.
Example C63_ex : rmap (λ db, (abbr_to_tz db (s2l "BST"), abbr_to_tz db (s2l "PST")))
    (tz_from_rows [(s2l "BST", s2l "UTC+01"); (s2l "GMT", s2l "UTC+00")]) = Ok (Some 3600%Z, None) ∧
  rmap (λ db, abbr_to_tz db (s2l "BST")) (tz_from_rows [(s2l "BST", s2l "UTC+01"); (s2l "BST", s2l "UTC+01")]) = Err EDupAbbr.
Proof. split_and!; by_compute. Qed.

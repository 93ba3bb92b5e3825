(** What the option for legacy fingerprints does (C149).  The vocabulary is in
    LegacyClaims.v. *)
From Verif Require Import MergeClaims.
From Verif Require Import Base Types SpecBase BaseProofs CommentModel FingerprintModel NwCsvModel TzModel PaypalModel
  ImportClaims TestsImport ImportExamples SameFpExamples LegacyClaims Legacy.
Local Open Scope nat_scope.

(** C149: importing a Nationwide statement with the option fails as without it, or gives
    the same transactions, with one more fingerprint for each posting; ... *)
Theorem C149_nationwide pd ho f records : hash_order_ok ho → records !! 3 ≠ Some FIVE_HEADERS →
  both (λ x x', x'.1 = x.1 ∧ Forall2 (trn_one_more x.1) x.2 x'.2) (nw_csv_import pd ho (NwOpts false f) records) (nw_csv_import pd ho (NwOpts true f) records).
Proof. exact (c149_nationwide pd ho f records). Qed.
Print Assumptions C149_nationwide.
(** ... a statement with five columns is imported in the same way with and without, as
    there are no legacy fingerprints for such; ... *)
Theorem C149_nationwide_five pd ho f records : records !! 3 = Some FIVE_HEADERS →
  nw_csv_import pd ho (NwOpts true f) records = nw_csv_import pd ho (NwOpts false f) records.
Proof. exact (c149_five pd ho f records). Qed.
Print Assumptions C149_nationwide_five.
(** ... and so for PayPal. *)
Theorem C149_paypal ho tz db ns rows : hash_order_ok ho →
  both (Forall2 (trn_one_more ns)) (pp_import ho false tz db ns rows) (pp_import ho true tz db ns rows).
Proof. exact (c149_paypal ho tz db ns rows). Qed.
Print Assumptions C149_paypal.

(** Number of tags of the postings. *)
Definition lg_tags (ts : list transaction) : list (list nat) :=
  map (λ t, map (λ p, length (elements (tags (pi_comment (posting_internal_of p))))) (t_postings t)) ts.
Example C149_ex : hash_order_ok default_order ∧ (six_head ++ [six_row "a"]) !! 3 ≠ Some FIVE_HEADERS ∧
  nw_csv_import ex_dates default_order (six_opts false) (six_head ++ [six_row "a"]) = Ok (s2l "cur", six_trns false "a") ∧
  nw_csv_import ex_dates default_order (six_opts true) (six_head ++ [six_row "a"]) = Ok (s2l "cur", six_trns true "a") ∧
  lg_tags (six_trns false "a") = [[3; 3]] ∧ lg_tags (six_trns true "a") = [[4; 4]].
Proof. split_and!; [apply default_order_ok|by_compute|vm_compute; reflexivity..]. Qed.
Example C149_five_ex : (ex_head ++ ex_rows) !! 3 = Some FIVE_HEADERS ∧
  nw_csv_import ex_dates default_order ex_opts (ex_head ++ ex_rows) = Ok (s2l "cur", ex_trns) ∧ length ex_trns = length ex_rows.
Proof. split_and!; [vm_compute; reflexivity|apply ex_imported|vm_compute; reflexivity]. Qed.
Example C149_paypal_ex : pp_import default_order false test_tz ex_db (s2l "paypal") pp_ex_rows = Ok (pp_ex false) ∧
  pp_import default_order true test_tz ex_db (s2l "paypal") pp_ex_rows = Ok (pp_ex true) ∧
  length (pp_ex false) = 2 ∧ concat (lg_tags (pp_ex true)) = map S (concat (lg_tags (pp_ex false))).
Proof. split_and!; [apply pp_ex_imported|apply pp_ex_imported|apply pp_ex_imported|vm_compute; reflexivity]. Qed.

(** C126: numbers in Nationwide statements that do not fit. *)
From Verif Require Import MergeClaims.
From Verif Require Import Base Types SpecBase CommentModel MergeModel FingerprintModel NwCsvModel PaypalModel ImportClaims
  CommentExamples ImportMoney ImportExamples TestsImport NwI64Model NwI64Claims NwI64 NwI64Examples.
Local Open Scope nat_scope.

(** An import does not panic if all amounts fit and there are fewer than 2^31 lines ... *)
Theorem C126_no_panic checks pd ho o records : (∀ row s, row ∈ records → s ∈ row → ¬ too_large s) →
  (Z.of_nat (length records) < 2 ^ 31)%Z → nw_csv_import_i64 checks pd ho o records ≠ Panic.
Proof. exact (import_i64_total checks pd ho o records). Qed.
Print Assumptions C126_no_panic.
Example C126_no_panic_ex : (∀ row s, row ∈ ex_head ++ ex_rows → s ∈ row → ¬ too_large s) ∧ length (ex_head ++ ex_rows) = 7 ∧
  too_large (gbp "92233720368547758.08").
Proof.
  refine (conj (short_records _ _) (conj _ _)); [vm_compute; reflexivity..|].
  exists [], false, (s2l "92233720368547758"), (s2l "08"), []. refine (conj _ (conj _ (conj _ _))); [reflexivity|..].
  - apply digits_ascii. split; [discriminate|vm_compute; reflexivity].
  - apply digits_ascii. split; [discriminate|vm_compute; reflexivity].
  - vm_compute. discriminate.
Qed.
(** ... and then the two builds give the same. *)
Theorem C126_same pd ho o records : nw_csv_import_i64 true pd ho o records ≠ Panic →
  nw_csv_import_i64 false pd ho o records = nw_csv_import_i64 true pd ho o records.
Proof. exact (import_i64_same pd ho o records). Qed.
Print Assumptions C126_same.
Example C126_same_ex : amounts_made (nw_csv_import_i64 true ex_dates default_order ex_opts (ex_one "92233720368547758.07")) =
    Ok (both_sides true 9223372036854775807) ∧
  amounts_made (nw_csv_import_i64 false ex_dates default_order ex_opts (ex_one "92233720368547758.07")) =
    Ok (both_sides true 9223372036854775807).
Proof. split; by_compute. Qed.
(** The build with checks is the one all other theorems are about; the one without never panics. *)
Theorem C126_checked pd ho o records : nw_csv_import_i64 true pd ho o records = nw_csv_import pd ho o records.
Proof. exact (import_checked pd ho o records). Qed.
Print Assumptions C126_checked.
Theorem C126_unchecked pd ho o records : nw_csv_import_i64 false pd ho o records ≠ Panic.
Proof. exact (proj1 (import_unchecked pd ho o records)). Qed.
Print Assumptions C126_unchecked.
(** So the theorems about imports that succeed hold for both builds as long as amounts fit. *)
Theorem C126_transfer checks pd ho o records r : (∀ row s, row ∈ records → s ∈ row → ¬ too_large s) →
  (Z.of_nat (length records) < 2 ^ 31)%Z →
  nw_csv_import_i64 checks pd ho o records = r ↔ nw_csv_import pd ho o records = r.
Proof. exact (import_i64_transfer checks pd ho o records r). Qed.
Print Assumptions C126_transfer.
(** What is read of an amount without checks: it is right up to 2^63 pence and wrong beyond. *)
Theorem C126_wrapped neg P F : digits P → digits F → (number P < 2 ^ 63)%N → (number F < 2 ^ 63)%N →
  ∃ m, gbp_value_i64 false (POUND :: sign_text neg ++ P ++ DOT :: F) = Ok (Amount (Dec neg 2 m) GBP) ∧
    (m = number P * 100 + number F ↔ number P * 100 + number F ≤ 2 ^ 63)%N.
Proof. exact (gbp_wrapped neg P F). Qed.
Print Assumptions C126_wrapped.
(** A payment of 184467440737095517 pounds becomes one of 84 pence in a build without checks. *)
Theorem C126_wrong_amount :
  nw_csv_import_i64 true ex_dates default_order ex_opts (ex_one "184467440737095517.00") = Panic ∧
  amounts_made (nw_csv_import_i64 false ex_dates default_order ex_opts (ex_one "184467440737095517.00")) = Ok (both_sides true 84) ∧
  amounts_made (nw_csv_import_i64 false ex_dates default_order ex_opts (ex_one "92233720368547758.08")) =
    Ok (both_sides true (2 ^ 63)) ∧
  amounts_made (nw_csv_import_i64 false ex_dates default_order ex_opts (ex_one "92233720368547758.09")) =
    Ok (both_sides true (2 ^ 63 - 1)).
Proof. refine (conj _ (conj _ (conj _ _))); by_compute. Qed.
Print Assumptions C126_wrong_amount.

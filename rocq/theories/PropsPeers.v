(** C49: which PayPal imports can be merged. *)
From Verif Require Import MergeSpec MergeClaims.
From Verif Require Import Base Types SpecBase CommentModel MergeModel FingerprintModel TzModel PaypalModel
  CommentClaims FingerprintClaims ImportClaims ImportRows ImportLaws ImportPaypal BaseProofs TestsImport ImportExamples PaypalPeers.
Local Open Scope nat_scope.

(** Without legacy fingerprints, the second posting of every row has no
    fingerprint. *)
Theorem C49_paypal_peers_bare ho tz db ns rows ts t i p : hash_order_ok ho → rows_ok rows →
  pp_import ho false tz db ns rows = Ok ts → t ∈ ts → t_postings t !! (2 * i + 1) = Some p → ¬ fingerprinted p.
Proof. exact (pp_peer_bare ho tz db ns rows ts t i p). Qed.
Print Assumptions C49_paypal_peers_bare.

(** So no such import of at least one row can be merged, into any merger, on its
    own or as part of a larger batch. *)
Theorem C49_paypal_never_merges ho tz db ns rows ts m ho1 tps : hash_order_ok ho → hash_order_ok ho1 → rows_ok rows →
  pp_import ho false tz db ns rows = Ok ts → rows ≠ [] → reachable m → (∀ tp, tp ∈ as_merged ts → tp ∈ tps) →
  ∃ e, merge ho1 m tps = (m, Err e).
Proof. exact (pp_rejected ho tz db ns rows ts m ho1 tps). Qed.
Print Assumptions C49_paypal_never_merges.
Example C49_paypal_ex : rows_ok pp_ex_rows ∧ pp_import default_order false test_tz ex_db (s2l "paypal") pp_ex_rows = Ok (pp_ex false) ∧
  ∃ e, merge default_order merger_new (as_merged (pp_ex false)) = (merger_new, Err e).
Proof.
  split_and!; [exact pp_ex_ok|exact (proj1 (pp_ex_imported false))|].
  exact (C49_paypal_never_merges default_order test_tz ex_db (s2l "paypal") pp_ex_rows (pp_ex false) merger_new default_order (as_merged (pp_ex false))
    default_order_ok default_order_ok pp_ex_ok (proj1 (pp_ex_imported false)) ltac:(discriminate) reach_new (λ _ H, H)).
Qed.

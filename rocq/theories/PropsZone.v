(** What the output time zone of a PayPal import decides (C150).  The vocabulary is in
    ZoneClaims.v. *)
From Verif Require Import MergeClaims.
From Verif Require Import Base Types SpecBase BaseProofs MergeModel MergeSpec TzModel PaypalModel ImportClaims TestsImport CommentExamples
  ImportExamples PropsImport LegacyClaims ZoneClaims Zone.
Local Open Scope nat_scope.

(** C150: importing a PayPal statement in one time zone and in another fails in the same
    way, or gives the same transactions but for their dates; ... *)
Theorem C150_only_dates ho legacy tz tz' db ns rows :
  both (Forall2 other_date) (pp_import ho legacy tz db ns rows) (pp_import ho legacy tz' db ns rows).
Proof. exact (zone_alike ho legacy tz tz' db ns rows). Qed.
Print Assumptions C150_only_dates.
(** ... what was merged from it in one is recognised when imported in the other: merging
    that changes nothing and leaves nothing over. *)
Theorem C150_imported_again m ho ho' hi legacy tz tz' db ns rows ts ts' m' :
  reachable m → hash_order_ok ho → hash_order_ok ho' →
  pp_import hi legacy tz db ns rows = Ok ts → pp_import hi legacy tz' db ns rows = Ok ts' →
  merge ho m (as_merged ts) = (m', Ok []) → merge ho' m' (as_merged ts') = (m', Ok []).
Proof. exact (zone_again m ho ho' hi legacy tz tz' db ns rows ts ts' m'). Qed.
Print Assumptions C150_imported_again.
(** That holds for all transactions: once merged, they are recognised by their postings,
    whatever their dates, descriptions, codes and comments have become. *)
Theorem C150_recognised_by_postings m ho ho' tps tps' m' :
  reachable m → hash_order_ok ho → hash_order_ok ho' →
  merge ho m tps = (m', Ok []) → Forall2 same_postings tps tps' → merge ho' m' tps' = (m', Ok []).
Proof. exact (remerge_headers m ho ho' tps tps' m'). Qed.
Print Assumptions C150_recognised_by_postings.

(** A time zone in which the first of the two groups of rows is on the day before. *)
Definition west_tz (i : instant) : date := if (i.1 <? 1546387200)%Z then (2018%Z, 12%N, 31%N) else (2019%Z, 1%N, 2%N).
Definition west_ex : list transaction := rok (pp_import default_order true west_tz ex_db (s2l "paypal") pp_ex_rows) [].
Example C150_ex : pp_import default_order true test_tz ex_db (s2l "paypal") pp_ex_rows = Ok (pp_ex true) ∧
  pp_import default_order true west_tz ex_db (s2l "paypal") pp_ex_rows = Ok west_ex ∧
  t_date <$> pp_ex true = [(2019%Z, 1%N, 1%N); (2019%Z, 1%N, 2%N)] ∧ t_date <$> west_ex = [(2018%Z, 12%N, 31%N); (2019%Z, 1%N, 2%N)].
Proof. split_and!; [apply pp_ex_imported|vm_compute; reflexivity..]. Qed.
Example C150_again_ex : ∃ m, merge default_order merger_new (as_merged (pp_ex true)) = (m, Ok []) ∧
  merge reverse_order m (as_merged west_ex) = (m, Ok []) ∧
  build reverse_order m = Ok (stable_sort (by_key tp_date) (as_merged (pp_ex true))).
Proof.
  destruct C69_ex as (m & Hm & Hb). exists m. split_and!; [done| |done].
  exact (C150_imported_again merger_new default_order reverse_order default_order true test_tz west_tz ex_db (s2l "paypal") pp_ex_rows
    (pp_ex true) west_ex m reach_new default_order_ok reverse_order_ok (proj1 (pp_ex_imported true)) (proj1 (proj2 C150_ex)) Hm).
Qed.
Example C150_postings_ex : Forall2 same_postings (as_merged (pp_ex true)) (as_merged west_ex) ∧ as_merged (pp_ex true) ≠ as_merged west_ex.
Proof.
  split.
  - apply Forall2_fmap. pose proof (C150_only_dates default_order true test_tz west_tz ex_db (s2l "paypal") pp_ex_rows) as H.
    rewrite (proj1 C150_ex), (proj1 (proj2 C150_ex)) in H. eapply Forall2_impl; [exact H|]. intros t t' ->. done.
  - intros H. apply (f_equal (fmap tp_date)) in H. revert H. vm_compute. discriminate.
Qed.

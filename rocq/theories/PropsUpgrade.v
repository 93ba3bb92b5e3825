(** Journals with older fingerprints (C151).  The vocabulary is in FewerClaims.v. *)
From Verif Require Import MergeClaims.
From Verif Require Import Base Types SpecBase BaseProofs CommentModel MergeModel MergeSpec FingerprintModel NwCsvModel ImportClaims
  TestsImport ImportExamples MergeExamples CommentExamples EditClaims WorkflowExamples SameFpExamples ImportRows ImportLaws ImportDays
  ResolveClaims FewerClaims Fewer Upgrade.
From Verif Require AssertExamples.
From Coq Require Import Lia.
Local Open Scope nat_scope.

(** C151: a journal that knows each posting of a set by some fingerprint takes the set in:
    nothing is handed back, no transaction or posting is added, and what the journal has is
    at most refined.  Afterwards it also knows sets that have other ones of these
    fingerprints only: merging them changes nothing. *)
Theorem C151_taken_in J s s' ho1 ho2 ho3 : hash_order_ok ho1 → hash_order_ok ho2 → hash_order_ok ho3 →
  journal_ok J → journal_ok s → known_in J s →
  Forall2 says_no_more s s' → (∀ p, p ∈ all_posts s' → mergeable p) →
  ∃ m1 m out, merge ho1 merger_new J = (m1, Ok []) ∧ merge ho2 m1 s = (m, Ok []) ∧ merge ho3 m s' = (m, Ok []) ∧
    (∀ ho, hash_order_ok ho → build ho m = Ok out) ∧ Forall2 trn_refines (stable_sort (by_key tp_date) J) out.
Proof. exact (upgrade J s s' ho1 ho2 ho3). Qed.
Print Assumptions C151_taken_in.
(** A journal that was made from the set, with some of its fingerprints only, knows it. *)
Theorem C151_known s J : fps_distinct (all_posts s) → fewer_fingerprints s J → known_in J s.
Proof. exact (fewer_known s J). Qed.
Print Assumptions C151_known.
(** So the option for legacy fingerprints does what it is for: a statement that is in the
    journal with legacy fingerprints is merged once with the option, which adds nothing to
    the journal but fingerprints and such; from then on it is recognised without. *)
Theorem C151_legacy pd hi f records ns ts ts' name rs J ho1 ho2 ho3 :
  hash_order_ok hi → hash_order_ok ho1 → hash_order_ok ho2 → hash_order_ok ho3 → parser_ok pd → fields_ok records →
  nw_csv_import pd hi (NwOpts true f) records = Ok (ns, ts') → nw_csv_import pd hi (NwOpts false f) records = Ok (ns, ts) →
  statement_reads pd records name rs → contiguous (rec_date <$> rs) → ¬ statement_collides rs →
  journal_ok J → known_in J (as_merged ts') →
  ∃ m1 m out, merge ho1 merger_new J = (m1, Ok []) ∧ merge ho2 m1 (as_merged ts') = (m, Ok []) ∧ merge ho3 m (as_merged ts) = (m, Ok []) ∧
    (∀ ho, hash_order_ok ho → build ho m = Ok out) ∧ Forall2 trn_refines (stable_sort (by_key tp_date) J) out.
Proof. exact (legacy_upgrade pd hi f records ns ts ts' name rs J ho1 ho2 ho3). Qed.
Print Assumptions C151_legacy.
(** The last part holds in any journal. *)
Theorem C151_without m ho ho' hi pd f records ns ts ts' m' : reachable m → hash_order_ok ho → hash_order_ok ho' → hash_order_ok hi →
  parser_ok pd → fields_ok records →
  nw_csv_import pd hi (NwOpts true f) records = Ok (ns, ts') → nw_csv_import pd hi (NwOpts false f) records = Ok (ns, ts) →
  merge ho m (as_merged ts') = (m', Ok []) → merge ho' m' (as_merged ts) = (m', Ok []).
Proof. exact (without_again m ho ho' hi pd f records ns ts ts' m'). Qed.
Print Assumptions C151_without.

(** A journal with legacy fingerprints; date, accounts and amounts have been edited. *)
Definition up_J : list transaction_postings :=
  [ex_tp day2 (s2l "coffee") [ex_post bank (-250) [s2l "fp-cur-DBXt3g0MHVu7SHmfS/Qq+XDa+I8"]; ex_post food 250 [s2l "fp-cur-P02ly4XJzOS6SOPcR0A7PGY6reI"; s2l "nice"]]].
Definition up_records : list csv_record := six_head ++ [six_row "a"].
Lemma up_J_ok : journal_ok up_J.
Proof. apply journal_check; by_compute. Qed.
Definition up_tags (s : list transaction_postings) : list (list (list str)) := map (λ tp, map fps_of (tp_posts tp)) s.
Lemma up_fps : up_tags (as_merged (six_trns true "a")) =
  [[[s2l "fp-nwcsv6.1.cur-3VzkOGwS0e5bQa0lKZsd00j6/HU"; s2l "fp-cur-DBXt3g0MHVu7SHmfS/Qq+XDa+I8"];
    [s2l "fp-cur-P02ly4XJzOS6SOPcR0A7PGY6reI"; s2l "fp-nwcsv6.1.cur-0fw5mYNFBRaDIRyN+/TBJom/axw"]]].
Proof. vm_compute. reflexivity. Qed.
Lemma up_fewer : fewer_fingerprints (as_merged (six_trns true "a")) up_J.
Proof.
  assert (∀ p q, bool_decide (fps_of q ≠ []) && forallb (λ f, bool_decide (f ∈ fps_of p)) (fps_of q) = true →
    (∃ f, has_fp q f) ∧ ∀ f, has_fp q f → has_fp p f) as H.
  { intros p q [H1%bool_decide_eq_true H2]%andb_true_iff. rewrite forallb_forall in H2. split.
    - destruct (fps_of q) as [|f l] eqn:E; [done|]. exists f. apply fps_of_spec. rewrite E. left.
    - intros f Hf%fps_of_spec. apply fps_of_spec. apply elem_of_list_In, H2, bool_decide_eq_true in Hf. done. }
  pose proof up_fps as E. unfold up_tags in E.
  destruct (as_merged (six_trns true "a")) as [|[h [|p [|q [|? ?]]]] [|? ?]]; try discriminate E. injection E as E1 E2.
  constructor; [|constructor]. cbn [tp_posts]. constructor; [|constructor; [|constructor]]; apply H; rewrite ?E1, ?E2; vm_compute; reflexivity.
Qed.
Lemma up_distinct : fps_distinct (all_posts (as_merged (six_trns true "a"))).
Proof.
  apply distinct_check. pose proof up_fps as E. unfold up_tags in E.
  destruct (as_merged (six_trns true "a")) as [|[h [|p [|q [|? ?]]]] [|? ?]]; try discriminate E. injection E as E1 E2.
  unfold all_posts. cbn. rewrite E1, E2. by_compute.
Qed.
Example C151_ex : journal_ok up_J ∧ fewer_fingerprints (as_merged (six_trns true "a")) up_J ∧ known_in up_J (as_merged (six_trns true "a")) ∧
  nw_csv_import ex_dates default_order (NwOpts true (NsFixed (s2l "cur"))) up_records = Ok (s2l "cur", six_trns true "a") ∧
  nw_csv_import ex_dates default_order (NwOpts false (NsFixed (s2l "cur"))) up_records = Ok (s2l "cur", six_trns false "a") ∧
  fields_ok up_records ∧ statement_reads ex_dates up_records (s2l "Current") [six_record "a"] ∧
  contiguous (rec_date <$> [six_record "a"]) ∧ ¬ statement_collides [six_record "a"].
Proof.
  split; [exact up_J_ok|]. split; [exact up_fewer|]. split; [exact (C151_known _ _ up_distinct up_fewer)|].
  split; [vm_compute; reflexivity|]. split; [vm_compute; reflexivity|]. split; [apply fields_ok_check; vm_compute; reflexivity|].
  split; [apply six_statement; vm_compute; reflexivity|]. split.
  - intros i j k d Hij Hjk _ Hk. apply lookup_lt_Some in Hk. cbn in Hk. lia.
  - apply AssertExamples.six_check; [reflexivity|by_compute].
Qed.
Example C151_taken_ex : ∃ m1 m out, merge default_order merger_new up_J = (m1, Ok []) ∧ merge reverse_order m1 (as_merged (six_trns true "a")) = (m, Ok []) ∧
  merge default_order m (as_merged (six_trns false "a")) = (m, Ok []) ∧
  (∀ ho, hash_order_ok ho → build ho m = Ok out) ∧ Forall2 trn_refines (stable_sort (by_key tp_date) up_J) out.
Proof.
  destruct C151_ex as (HJ & _ & Hk & I1 & I2 & Hf & Hs & Hc & Hn).
  exact (C151_legacy ex_dates default_order (NsFixed (s2l "cur")) up_records (s2l "cur") _ _ _ _ up_J default_order reverse_order default_order
    default_order_ok default_order_ok reverse_order_ok default_order_ok ex_dates_ok Hf I1 I2 Hs Hc Hn HJ Hk).
Qed.
(** The option is needed for that: merged without, at first, the payment is in the journal twice. *)
Theorem C151_option_needed : ∃ J records ts m1 m, journal_ok J ∧
  nw_csv_import ex_dates default_order (NwOpts false (NsFixed (s2l "cur"))) records = Ok (s2l "cur", ts) ∧ length ts = 1 ∧ length J = 1 ∧
  merge default_order merger_new J = (m1, Ok []) ∧ merge default_order m1 (as_merged ts) = (m, Ok []) ∧
  rmap length (build default_order m) = Ok 2.
Proof.
  exists up_J, up_records, (six_trns false "a"), (merge default_order merger_new up_J).1,
    (merge default_order (merge default_order merger_new up_J).1 (as_merged (six_trns false "a"))).1.
  split; [exact up_J_ok|]. split; [apply C151_ex|]. split; [vm_compute; reflexivity|]. split; [reflexivity|].
  split; [apply merge_eq; vm_compute; reflexivity|]. split; [apply merge_eq; vm_compute; reflexivity|]. vm_compute. reflexivity.
Qed.
Print Assumptions C151_option_needed.

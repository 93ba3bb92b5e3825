(** C65, C66, C76-C81, C83: PDF statements. *)
From Verif Require Import MergeClaims.
From Verif Require Import Base Types SpecBase CommentModel MergeModel Sha1 FingerprintModel NwCsvModel PaypalModel
  CommentClaims FingerprintClaims ImportClaims BaseProofs CommentExamples OcrModel PdfModel PdfClaims PdfTable PdfFold PdfLaws PdfLaws2 PdfExamples.
From Coq Require Import Lia.
Local Open Scope nat_scope.

(** C65: as stated it is false: a transaction that goes on after a page break. *)
Theorem C65_fingerprints_unique_refuted : ∃ E doc ns ts ls skip gs t t' p q, env_ok E ∧
  pdf_import E default_order (NsFixed (s2l "cur")) doc = Ok (ns, ts) ∧ statement_lines E doc ls ∧ grouped ls skip gs ∧
  ts !! 1 = Some t ∧ ts !! 2 = Some t' ∧ t_date t = t_date t' ∧ sequence None 0 gs = [0; 0; 0] ∧
  all_posts (as_merged ts) !! 2 = Some p ∧ all_posts (as_merged ts) !! 4 = Some q ∧ share_fp p q.
Proof.
  destruct ex_split_shared as (p & q & Hp & Hq & Hs).
  assert (∃ t t', pdf_trns (ex_doc true) !! 1 = Some t ∧ pdf_trns (ex_doc true) !! 2 = Some t' ∧ t_date t = t_date t') as (t & t' & H1 & H2 & H3).
  { assert ((λ t, t_date t) <$> pdf_trns (ex_doc true) !! 1 = (λ t, t_date t) <$> pdf_trns (ex_doc true) !! 2) as H by (vm_compute; reflexivity).
    assert (length (pdf_trns (ex_doc true)) = 3) as Hl by apply ex_doc_imported.
    destruct (pdf_trns (ex_doc true)) as [|t0 [|t1 [|t2 ts]]]; try discriminate Hl. injection H as H. by exists t1, t2. }
  exists pdf_ex_env, (ex_doc true), (s2l "cur"), (pdf_trns (ex_doc true)), (pdf_lines (ex_doc true)), (group_up (pdf_lines (ex_doc true))).1,
    (group_up (pdf_lines (ex_doc true))).2, t, t', p, q.
  refine (conj pdf_ex_env_ok (conj (proj1 (ex_doc_imported true)) (conj (ex_doc_lines true) (conj (group_up_spec _) (conj H1 (conj H2 (conj H3 (conj _ (conj Hp (conj Hq Hs)))))))))).
  vm_compute. reflexivity.
Qed.
Print Assumptions C65_fingerprints_unique_refuted.

(** C76: they are unique if the lines of a date are next to each other. *)
Theorem C76_fingerprints_unique E ho o doc ns ts ls skip gs i j p q : hash_order_ok ho → env_ok E → (∀ t, t ∈ ts → str_ok (t_description t)) →
  pdf_import E ho o doc = Ok (ns, ts) → statement_lines E doc ls → grouped ls skip gs →
  together (tl_date <$> (gs ≫= group_lines)) →
  all_posts (as_merged ts) !! i = Some p → all_posts (as_merged ts) !! j = Some q → i ≠ j → share_fp p q →
  pdf_collides ts (sequence None 0 gs).
Proof. exact (c76 E ho o doc ns ts ls skip gs i j p q). Qed.
Print Assumptions C76_fingerprints_unique.
Theorem C76_numbers E ho o doc ns ts ls skip gs i j t t' n n' : pdf_import E ho o doc = Ok (ns, ts) →
  statement_lines E doc ls → grouped ls skip gs → together (tl_date <$> (gs ≫= group_lines)) →
  ts !! i = Some t → ts !! j = Some t' → t_date t = t_date t' →
  sequence None 0 gs !! i = Some n → sequence None 0 gs !! j = Some n' → i < j → n < n'.
Proof. exact (c76_numbers E ho o doc ns ts ls skip gs i j t t' n n'). Qed.
Print Assumptions C76_numbers.
Example C76_ex : env_ok pdf_ex_env ∧ (∀ t, t ∈ pdf_trns (ex_doc false) → str_ok (t_description t)) ∧
  pdf_import pdf_ex_env default_order ex_cur (ex_doc false) = Ok (s2l "cur", pdf_trns (ex_doc false)) ∧
  statement_lines pdf_ex_env (ex_doc false) (pdf_lines (ex_doc false)) ∧
  grouped (pdf_lines (ex_doc false)) (group_up (pdf_lines (ex_doc false))).1 (pdf_groups (ex_doc false)) ∧
  together (tl_date <$> (pdf_groups (ex_doc false) ≫= group_lines)) ∧
  ¬ pdf_collides (pdf_trns (ex_doc false)) (sequence None 0 (pdf_groups (ex_doc false))) ∧
  sequence None 0 (pdf_groups (ex_doc false)) = [0; 0; 1].
Proof.
  refine (conj pdf_ex_env_ok (conj (ex_doc_texts false) (conj (proj1 (ex_doc_imported false)) (conj (ex_doc_lines false)
    (conj (group_up_spec _) (conj ex_doc_together (conj ex_doc_no_collision _))))))).
  vm_compute. reflexivity.
Qed.

(** C66 *)
Theorem C66_groups E ho o doc ns ts ls skip gs : pdf_import E ho o doc = Ok (ns, ts) → statement_lines E doc ls → grouped ls skip gs →
  Forall2 (group_transaction E) gs ts.
Proof. exact (c66_groups E ho o doc ns ts ls skip gs). Qed.
Print Assumptions C66_groups.
(** The lines and the groups exist and are unique. *)
Theorem C66_lines_unique E doc ls ls' : statement_lines E doc ls → statement_lines E doc ls' → ls = ls'.
Proof. exact (statement_fun' E doc ls ls'). Qed.
Print Assumptions C66_lines_unique.
Theorem C66_groups_exist ls : ∃ skip gs, grouped ls skip gs ∧ ∀ skip' gs', grouped ls skip' gs' → skip' = skip ∧ gs' = gs.
Proof.
  destruct (grouping ls) as (skip & gs & H). exists skip, gs. exact (conj H (λ _ _ H', grouping_fun _ _ _ _ _ H' H)).
Qed.
Print Assumptions C66_groups_exist.
Theorem C66_accepts E ho o doc name ns ls skip gs : account_is doc name → make_namespace o name = Ok ns → statement_lines E doc ls →
  grouped ls skip gs → (gs ≠ [] → fp_part ns) → (∀ g, g ∈ gs → ∃ d a es bs, group_reads E g d a es bs) →
  (∀ m, m ∈ sequence None 0 gs → (Z.of_nat m < 2147483647)%Z) → ∃ ts, pdf_import E ho o doc = Ok (ns, ts).
Proof. exact (c66_accepts E ho o doc name ns ls skip gs). Qed.
Print Assumptions C66_accepts.
Theorem C66_accepts_only E ho o doc ns ts : pdf_import E ho o doc = Ok (ns, ts) →
  ∃ name ls skip gs, account_is doc name ∧ make_namespace o name = Ok ns ∧ statement_lines E doc ls ∧ grouped ls skip gs ∧
    (gs ≠ [] → fp_part ns) ∧ (∀ m, m ∈ sequence None 0 gs → (Z.of_nat m < 2147483647)%Z) ∧ Forall2 (group_transaction E) gs ts.
Proof. exact (c66_only E ho o doc ns ts). Qed.
Print Assumptions C66_accepts_only.
Theorem C66_both_fails E ho o doc ls l : statement_lines E doc ls → l ∈ ls → tl_payment l ≠ None → tl_receipt l ≠ None →
  ∀ out, pdf_import E ho o doc ≠ Ok out.
Proof. exact (c66_both E ho o doc ls l). Qed.
Print Assumptions C66_both_fails.
Example C66_ex : (λ g : group, length g.2) <$> pdf_groups (ex_doc false) = [1; 1; 1] ∧
  account_is (ex_doc false) (s2l "12-34-56 12345678") ∧
  (λ t, (t_date t, t_effective_date t, t_description t)) <$> pdf_trns (ex_doc false) =
    [((2021%Z, 1%N, 1%N), Some (2020%Z, 12%N, 31%N), s2l "Employer"); ((2021%Z, 1%N, 2%N), None, s2l "Shop Reference");
     ((2021%Z, 1%N, 2%N), None, s2l "Shop Reference")] ∧
  (λ t, (λ p, (p_account p, (λ a, d_signed (a_quantity (pa_amount a))) <$> p_amount p)) <$> t_postings t) <$> pdf_trns (ex_doc false) =
    [[(s2l "assets:unknown", Some 125000%Z); (s2l "income:unknown", Some (-125000)%Z)];
     [(s2l "assets:unknown", Some (-1000)%Z); (s2l "expenses:unknown", Some 1000%Z)];
     [(s2l "assets:unknown", Some (-1000)%Z); (s2l "expenses:unknown", Some 1000%Z)]].
Proof.
  split; [vm_compute; reflexivity|]. split; [apply account_spec; vm_compute; reflexivity|]. split; vm_compute; reflexivity.
Qed.

(** C77 *)
Theorem C77_dates E ho o doc ns ts t y m d : pdf_import E ho o doc = Ok (ns, ts) → t ∈ ts → t_date t = (y, m, d) →
  (1980 ≤ y ≤ 2100)%Z ∧ valid_date y m d.
Proof. intros H Ht Hd. pose proof (pdf_dates E ho o doc ns ts t H Ht) as Hx. rewrite Hd in Hx. exact Hx. Qed.
Print Assumptions C77_dates.
(** A line with the day, month and year of a day of the calendar is not refused. *)
Theorem C77_accepts y m d : from_ymd y m d = Ok (y, m, d) ↔ valid_date y m d.
Proof. exact (from_ymd_valid y m d). Qed.
Print Assumptions C77_accepts.
Example C77_ex : ¬ valid_date 2021 2 29 ∧ valid_date 2020 2 29 ∧ ¬ valid_date 2100 2 29 ∧ valid_date 2000 2 29 ∧ ¬ valid_date 2020 4 31 ∧
  length (pdf_trns (ex_doc true)) = 3.
Proof. rewrite <- !C77_accepts. split_and!; vm_compute; (done || reflexivity). Qed.

(** C78 *)
Theorem C78_balanced E ho o doc ns ts t : pdf_import E ho o doc = Ok (ns, ts) → t ∈ ts → balanced t.
Proof. exact (pdf_balanced E ho o doc ns ts t). Qed.
Print Assumptions C78_balanced.
Theorem C78_sides E ho o doc ns ts t : hash_order_ok ho → pdf_import E ho o doc = Ok (ns, ts) → t ∈ ts →
  ∃ own peer, t_postings t = [own; peer] ∧ sides own peer ∧ fingerprinted own ∧ fingerprinted peer.
Proof. exact (pdf_sides E ho o doc ns ts t). Qed.
Print Assumptions C78_sides.
Example C78_ex : pdf_import pdf_ex_env default_order ex_cur (ex_doc true) = Ok (s2l "cur", pdf_trns (ex_doc true)) ∧ length (pdf_trns (ex_doc true)) = 3.
Proof. exact (ex_doc_imported true). Qed.

(** C79 *)
Theorem C79_merges E ho o doc ns ts ls skip gs ho1 ho2 : hash_order_ok ho → hash_order_ok ho1 → hash_order_ok ho2 → env_ok E →
  (∀ t, t ∈ ts → str_ok (t_description t)) → pdf_import E ho o doc = Ok (ns, ts) → statement_lines E doc ls → grouped ls skip gs →
  together (tl_date <$> (gs ≫= group_lines)) → ¬ pdf_collides ts (sequence None 0 gs) →
  ∃ m, merge ho1 merger_new (as_merged ts) = (m, Ok []) ∧ build ho2 m = Ok (stable_sort (by_key tp_date) (as_merged ts)).
Proof. exact (pdf_merges E ho o doc ns ts ls skip gs ho1 ho2). Qed.
Print Assumptions C79_merges.
Example C79_ex : ∃ m, merge default_order merger_new (as_merged (pdf_trns (ex_doc false))) = (m, Ok []) ∧
  build reverse_order m = Ok (stable_sort (by_key tp_date) (as_merged (pdf_trns (ex_doc false)))).
Proof.
  exact (C79_merges pdf_ex_env default_order ex_cur (ex_doc false) (s2l "cur") _ _ _ _ default_order reverse_order default_order_ok default_order_ok
    reverse_order_ok pdf_ex_env_ok (ex_doc_texts false) (proj1 (ex_doc_imported false)) (ex_doc_lines false) (group_up_spec _) ex_doc_together ex_doc_no_collision).
Qed.

(** C80 *)
Theorem C80_no_panic E ho o doc : (Z.of_nat (length (doc_lines doc)) < 2147483647)%Z → pdf_import E ho o doc ≠ Panic.
Proof. exact (pdf_no_panic E ho o doc). Qed.
Print Assumptions C80_no_panic.
Example C80_ex : length (doc_lines (ex_doc false)) = 12.
Proof. vm_compute. reflexivity. Qed.

(** C81 *)
Theorem C81_account_name_fails E ho doc ls l : statement_lines E doc ls → l ∈ ls → starts l →
  ∀ out, pdf_import E ho NsAccountName doc ≠ Ok out.
Proof. exact (account_name_fails E ho doc ls l). Qed.
Print Assumptions C81_account_name_fails.
Theorem C81_generated_works E ho doc name ls skip gs : account_is doc name → statement_lines E doc ls →
  grouped ls skip gs → (∀ g, g ∈ gs → ∃ d a es bs, group_reads E g d a es bs) →
  (∀ m, m ∈ sequence None 0 gs → (Z.of_nat m < 2147483647)%Z) → ∃ out, pdf_import E ho NsGenerated doc = Ok out.
Proof. exact (generated_works E ho doc name ls skip gs). Qed.
Print Assumptions C81_generated_works.
Example C81_ex : rmap fst (pdf_import pdf_ex_env default_order NsAccountName (ex_doc false)) = Err EBadNamespace ∧
  rmap (λ x, length x.2) (pdf_import pdf_ex_env default_order NsGenerated (ex_doc false)) = Ok 3.
Proof. split; vm_compute; reflexivity. Qed.

(** C83: a word is read in at most one column if no edge cuts it. *)
Theorem C83_one_column h c w i j b b' : is_header h c →
  (bo_max (co_date c) ≤ bo_min (co_details c) ≤ bo_min (co_payments c))%Z →
  (bo_min (co_payments c) ≤ bo_min (co_receipts c) ≤ bo_min (co_balance c))%Z →
  (∀ b, b ∈ [co_details c; co_payments c; co_receipts c; co_balance c] → clear_of (bo_min b) w) →
  let cols := [co_date c; co_details c; co_payments c; co_receipts c; co_balance c] in
  cols !! i = Some b → cols !! j = Some b' → in_column b w → in_column b' w → i = j.
Proof. exact (one_column' h c w i j b b'). Qed.
Print Assumptions C83_one_column.
Example C83_ex : ∃ c w, is_header (head_line 1 40) c ∧ (bo_max (co_date c) ≤ bo_min (co_details c) ≤ bo_min (co_payments c))%Z ∧
  (bo_min (co_payments c) ≤ bo_min (co_receipts c) ≤ bo_min (co_balance c))%Z ∧
  (∀ b, b ∈ [co_details c; co_payments c; co_receipts c; co_balance c] → clear_of (bo_min b) w) ∧
  (∃ l, l ∈ doc_lines (ex_doc false) ∧ w ∈ ln_words l) ∧ in_column (co_receipts c) w.
Proof.
  exists (Columns 0 (Bounds 0 80) (Bounds 100 500) (Bounds 500 600) (Bounds 600 700) (Bounds 700 760)), (Word 4 600 30 (s2l "1,250.00")).
  refine (conj _ (conj _ (conj _ (conj _ (conj _ _))))).
  - eexists _, _, _, _, _, _. cbn [ln_words head_line wd_left wd_width]. done.
  - done.
  - done.
  - intros b Hb. unfold clear_of. rewrite !elem_of_cons in Hb. destruct Hb as [->|[->|[->|[->|[]%elem_of_nil]]]]; cbn; lia.
  - assert (∃ x, doc_lines (ex_doc false) !! 3 = Some x ∧ ln_words x !! 3 = Some (Word 4 600 30 (s2l "1,250.00"))) as (x & H1 & H2) by (eexists; split; vm_compute; reflexivity).
    exists x. split; by eapply elem_of_list_lookup_2.
  - done.
Qed.
(** A word over an edge is read in both columns: the import fails. *)
Theorem C83_cut_word_fails : ∃ E doc ls l w, env_ok E ∧ statement_lines E doc ls ∧ l ∈ ls ∧
  tl_payment l = Some (wd_text w) ∧ tl_receipt l = Some (wd_text w) ∧ (∃ x, x ∈ doc_lines doc ∧ w ∈ ln_words x) ∧
  ∀ ho o out, pdf_import E ho o doc ≠ Ok out.
Proof. exact cut_word. Qed.
Print Assumptions C83_cut_word_fails.

(** The text of comments (C37, C101) and the details of imported rows (C102).
    Vocabulary: CommentTextClaims.v, DetailClaims.v. *)
From Verif Require Import MergeClaims.
From Verif Require Import Base Types SpecBase BaseProofs CommentModel MergeModel Sha1 FingerprintModel NwCsvModel TzModel PaypalModel
  CommentClaims CommentExamples CommentTextClaims CommentText FingerprintClaims ImportClaims ImportExamples TestsImport OcrModel PdfModel PdfClaims PdfExamples
  DetailClaims ImportDetails.
Local Open Scope nat_scope.

(** C37: the lines of a comment that was read are the texts found around the tags
    of each line, without white space around them, in order. *)
Theorem C37_lines_found s : ∃ tss, Forall2 adds_text (split_on newline s) tss ∧
  lines (from_opt_comment (Some s)) = filter (λ t, t ≠ []) (trim <$> mjoin tss).
Proof. exact (lines_exact s). Qed.
Print Assumptions C37_lines_found.
(** There is one way to divide a line. *)
Theorem C37_texts_unique l ts ts' : line_texts l ts → line_texts l ts' → ts = ts'.
Proof. exact (line_texts_unique l ts ts'). Qed.
Print Assumptions C37_texts_unique.
Example C37_lines_ex : let l := s2l "one :a:b: two : :c: three :d:" in
  line_texts l [s2l "one "; s2l " two : "; s2l " three "; []] ∧
  lines (from_opt_comment (Some (l ++ newline :: s2l "key: value" ++ newline :: s2l "four"))) =
    [s2l "one"; s2l "two :"; s2l "three"; s2l "four"].
Proof. split; [exact (line_has_texts (s2l "one :a:b: two : :c: three :d:"))|vm_compute; reflexivity]. Qed.

(** C101: reading a comment and writing it again does not keep the earlier values
    of a key given twice; writing it a second time can lose text. *)
Theorem C101_repeated_key_refuted : ∃ s l v out, l ∈ split_on newline s ∧ value_text (s2l "k") l v ∧ v ≠ [] ∧
  into_opt_comment default_order (from_opt_comment (Some s)) = Some out ∧ ∀ a b, out ≠ a ++ v ++ b.
Proof.
  exists (s2l "k: 1" ++ newline :: s2l "k: 2"), (s2l "k: 1"), (s2l "1"), (s2l "k: 2").
  split; [by_compute|]. split; [|split; [done|split; [vm_compute; reflexivity|]]].
  - split; [split; [done|]; intros c; change (s2l "k") with [107%N]; intros ->%elem_of_list_singleton; done|].
    exists [], [space]. split; [intros c H; by apply elem_of_nil in H|]. split; [by intros c ->%elem_of_list_singleton|].
    right. split; [reflexivity|]. split; [done|]. right. exists 49%N, []. done.
  - intros a b E. assert (49%N ∈ s2l "k: 2") as H; [|revert H; apply (bool_decide_unpack (49%N ∉ s2l "k: 2")); vm_compute; exact I].
    rewrite E. apply elem_of_app. right. apply elem_of_app. left. left.
Qed.
Print Assumptions C101_repeated_key_refuted.
Theorem C101_second_time_refuted : ∃ s l ts x out out', l ∈ split_on newline s ∧ (∀ k, ¬ value_line k l) ∧ line_texts l ts ∧ x ∈ ts ∧
  into_opt_comment default_order (from_opt_comment (Some s)) = Some out ∧ trim x ∈ split_on newline out ∧
  into_opt_comment default_order (from_opt_comment (Some out)) = Some out' ∧ trim x ∉ split_on newline out'.
Proof.
  exists (s2l ":a: x" ++ newline :: s2l ":b: k: 1" ++ newline :: s2l ":c: k: 2"), (s2l ":b: k: 1"), [[]; s2l " k: 1"], (s2l " k: 1").
  eexists _, _. split; [by_compute|]. split.
  { intros k ([Hne Hc] & sp & tail & Hsp & E & _). destruct sp as [|d sp].
    - destruct k as [|d k]; [done|]. injection E as <- _. by destruct (Hc colon ltac:(left)).
    - injection E as <- _. by specialize (Hsp colon ltac:(left)). }
  split; [exact (line_has_texts (s2l ":b: k: 1"))|]. split; [right; left|]. split; [vm_compute; reflexivity|].
  split; [by_compute|]. split; [vm_compute; reflexivity|]. by_compute.
Qed.
Print Assumptions C101_second_time_refuted.
(** Everything else is kept: the tags of every line, the text around them, and the
    last value of every key. *)
Theorem C101_reformatting_keeps_partial ho s : hash_order_ok ho →
  let out := text_lines (into_opt_comment ho (from_opt_comment (Some s))) in
  (∀ l t, l ∈ split_on newline s → (∀ k, ¬ value_line k l) → flag_in t l → ∃ l', l' ∈ out ∧ flag_in t l') ∧
  (∀ l ts x, l ∈ split_on newline s → (∀ k, ¬ value_line k l) → line_texts l ts → x ∈ ts → trim x ≠ [] → ∃ l', l' ∈ out ∧ ends_with (trim x) l') ∧
  (∀ k v, last_value (split_on newline s) k v → trim k ++ colon :: space :: trim v ∈ out).
Proof. exact (reformat_keeps ho s). Qed.
Print Assumptions C101_reformatting_keeps_partial.
Example C101_ex : into_opt_comment default_order (from_opt_comment (Some
    (s2l "one :b: two :a:" ++ newline :: s2l " key:  first" ++ newline :: s2l "key: second " ++ newline :: s2l "three"))) =
  Some (s2l ":a:b: one" ++ newline :: s2l "two" ++ newline :: s2l "three" ++ newline :: s2l "key: second").
Proof. vm_compute. reflexivity. Qed.

(** C102 *)
Theorem C102_nationwide pd ho o records ns ts name rs k t r : hash_order_ok ho → parser_ok pd → fields_ok records →
  nw_csv_import pd ho o records = Ok (ns, ts) → statement_reads pd records name rs → ts !! k = Some t → rs !! k = Some r →
  ∃ own peer seq, t_postings t = [own; peer] ∧ sequence_text ns (S (day_number (rec_date <$> rs) k)) seq ∧
    values_are own ((s2l "seq", seq) :: nw_details name r) ∧ values_are peer (nw_details name r) ∧ own_tags own ∧ peer_tags peer.
Proof. exact (nw_says pd ho o records ns ts name rs k t r). Qed.
Print Assumptions C102_nationwide.
Theorem C102_paypal ho legacy tz db ns rows ts gs k t ti g i r : hash_order_ok ho → rows_ok rows →
  pp_import ho legacy tz db ns rows = Ok ts → runs db rows gs → ts !! k = Some t → gs !! k = Some (ti, g) → g !! i = Some r →
  ∃ own peer, t_postings t !! (2 * i) = Some own ∧ t_postings t !! (2 * i + 1) = Some peer ∧
    values_are own (pp_own_details r) ∧ values_are peer (pp_peer_details r) ∧ own_tags own ∧ peer_tags peer.
Proof. exact (pp_says ho legacy tz db ns rows ts gs k t ti g i r). Qed.
Print Assumptions C102_paypal.
Theorem C102_pdf E ho o doc ns ts ls skip gs k t n : hash_order_ok ho → pdf_import E ho o doc = Ok (ns, ts) → statement_lines E doc ls → grouped ls skip gs →
  ts !! k = Some t → sequence None 0 gs !! k = Some n →
  ∃ own peer seq, t_postings t = [own; peer] ∧ sequence_text ns (S n) seq ∧
    values_are own [(s2l "seq", seq); (s2l "bank", s2l "Nationwide")] ∧ values_are peer [(s2l "bank", s2l "Nationwide")] ∧ own_tags own ∧ peer_tags peer.
Proof. exact (pdf_says E ho o doc ns ts ls skip gs k t n). Qed.
Print Assumptions C102_pdf.
(** Some of the value tags: of the statement of C43_ex, whose second row is the
    second of its day; of the payments of C50_ex; of the document of C76_ex. *)
Definition ex_values (ts : list transaction) (k i : nat) (keys : list string) : option (list (option str)) :=
  (λ p, (λ key : string, value_tags (pi_comment (posting_internal_of p)) !! s2l key) <$> keys) <$> (ts !! k ≫= λ t, t_postings t !! i).
Example C102_ex : ∃ r, parser_ok ex_dates ∧ fields_ok (ex_head ++ ex_rows) ∧
  nw_csv_import ex_dates default_order ex_opts (ex_head ++ ex_rows) = Ok (s2l "cur", ex_trns) ∧
  statement_reads ex_dates (ex_head ++ ex_rows) (s2l "Current") ex_records ∧ ex_records !! 1 = Some r ∧
  day_number (rec_date <$> ex_records) 1 = 1 ∧
  ex_values ex_trns 1 0 ["seq"; "account"; "bank"; "transactions"; "location"]%string =
    Some [Some (s2l "cur-2"); Some (s2l "Current"); Some (s2l "Nationwide"); Some (s2l "COFFEE"); None] ∧
  ex_values ex_trns 2 0 ["seq"]%string = Some [Some (s2l "cur-1")] ∧ ex_values ex_trns 1 1 ["seq"]%string = Some [None].
Proof.
  eexists. split; [exact ex_dates_ok|]. split; [apply ex_fields|]. split; [apply ex_imported|]. split; [exact ex_statement|].
  split; [reflexivity|]. split; [by_compute|]. split; [vm_compute; reflexivity|]. split; vm_compute; reflexivity.
Qed.
Example C102_paypal_ex : rows_ok pp_ex_rows ∧ pp_import default_order false test_tz ex_db (s2l "paypal") pp_ex_rows = Ok (pp_ex false) ∧
  runs ex_db pp_ex_rows pp_ex_groups ∧
  ex_values (pp_ex false) 0 1 ["trn_name"; "trn_type"; "receipt_id"]%string = Some [Some (s2l "Somecompany Inc."); Some (s2l PREAPPROVED); None] ∧
  ex_values (pp_ex false) 0 3 ["trn_name"]%string = Some [None].
Proof.
  split; [exact pp_ex_ok|]. split; [apply (pp_ex_imported false)|]. split; [exact pp_ex_runs|]. split; vm_compute; reflexivity.
Qed.
Example C102_pdf_ex : pdf_import pdf_ex_env default_order ex_cur (ex_doc false) = Ok (s2l "cur", pdf_trns (ex_doc false)) ∧
  statement_lines pdf_ex_env (ex_doc false) (pdf_lines (ex_doc false)) ∧
  grouped (pdf_lines (ex_doc false)) (group_up (pdf_lines (ex_doc false))).1 (pdf_groups (ex_doc false)) ∧
  sequence None 0 (pdf_groups (ex_doc false)) !! 2 = Some 1 ∧
  ex_values (pdf_trns (ex_doc false)) 2 0 ["seq"; "bank"]%string = Some [Some (s2l "cur-2"); Some (s2l "Nationwide")].
Proof.
  split; [apply (ex_doc_imported false)|]. split; [apply (ex_doc_lines false)|]. split; [apply PdfExamples.group_up_spec|].
  split; vm_compute; reflexivity.
Qed.

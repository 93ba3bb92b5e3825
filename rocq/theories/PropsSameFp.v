(** C125: which imported postings have a fingerprint in common. *)
From Verif Require Import MergeClaims.
From Verif Require Import Base Types SpecBase CommentModel MergeModel FingerprintModel NwCsvModel TzModel PaypalModel OcrModel PdfModel
  CommentClaims FingerprintClaims ImportClaims BaseProofs TestsImport ImportExamples PdfClaims PdfFold PdfLaws PdfExamples
  SameFpClaims SameFp SameFpExamples.
Local Open Scope nat_scope.

(** Row [k] of one Nationwide statement and row [k'] of another (or the same) one,
    and one posting of each. *)
Theorem C125_nationwide pd pd' ho ho' o o' records records' ns ns' ts ts' name name' rs rs' k k' t t' n n' p q r r' :
  hash_order_ok ho → hash_order_ok ho' → parser_ok pd → parser_ok pd' → fields_ok records → fields_ok records' →
  nw_csv_import pd ho o records = Ok (ns, ts) → nw_csv_import pd' ho' o' records' = Ok (ns', ts') →
  statement_reads pd records name rs → statement_reads pd' records' name' rs' →
  ts !! k = Some t → ts' !! k' = Some t' → t_postings t !! n = Some p → t_postings t' !! n' = Some q →
  rs !! k = Some r → rs' !! k' = Some r' →
  let i := day_number (rec_date <$> rs) k in let i' := day_number (rec_date <$> rs') k' in
  let same := ns = ns' ∧ n = n' ∧ i = i' ∧ same_entry (nw_legacy o && nw_legacy o') r r' in
  (same → share_fp (posting_internal_of p) (posting_internal_of q)) ∧
  (share_fp (posting_internal_of p) (posting_internal_of q) → same ∨ row_messages_collide r i r' i').
Proof. exact (nw_share pd pd' ho ho' o o' records records' ns ns' ts ts' name name' rs rs' k k' t t' n n' p q r r'). Qed.
Print Assumptions C125_nationwide.
(** A payment described differently is recognised by its legacy fingerprint, and
    not without. *)
Example C125_nationwide_ex : let p l := posting_internal_of (a_post (a_trn (six_trns l "SHOP") 0) 1) in
  let q l := posting_internal_of (a_post (a_trn (six_trns l "SHOP LTD") 0) 1) in
  share_fp (p true) (q true) ∧ ¬ share_fp (p true) (q false) ∧ ¬ share_fp (p false) (q false) ∧ share_fp (p true) (p false).
Proof.
  cbv zeta.
  assert (∀ l d, l = true ∨ l = false → d = "SHOP" ∨ d = "SHOP LTD" → fields_ok (six_head ++ [six_row d]) ∧
    nw_csv_import ex_dates default_order (six_opts l) (six_head ++ [six_row d]) = Ok (s2l "cur", six_trns l d) ∧
    statement_reads ex_dates (six_head ++ [six_row d]) (s2l "Current") [six_record d] ∧
    six_trns l d !! 0 = Some (a_trn (six_trns l d) 0) ∧ t_postings (a_trn (six_trns l d) 0) !! 1 = Some (a_post (a_trn (six_trns l d) 0) 1)) as H.
  { intros l d Hl Hd. destruct Hl as [->| ->], Hd as [->| ->]; (split; [apply fields_ok_check; vm_compute; reflexivity|]; split; [vm_compute; reflexivity|];
      split; [apply six_statement; vm_compute; reflexivity|]; split; vm_compute; reflexivity). }
  destruct (H true "SHOP") as (F1 & I1 & S1 & T1 & P1); [by left|by left|]. destruct (H true "SHOP LTD") as (F2 & I2 & S2 & T2 & P2); [by left|by right|].
  destruct (H false "SHOP") as (F3 & I3 & S3 & T3 & P3); [by right|by left|].
  split_and!.
  - refine (proj1 (C125_nationwide _ _ _ _ _ _ _ _ _ _ _ _ _ _ _ _ 0 0 _ _ 1 1 _ _ _ _ default_order_ok default_order_ok ex_dates_ok ex_dates_ok F1 F2 I1 I2 S1 S2 T1 T2 P1 P2 eq_refl eq_refl) _).
    exact (conj eq_refl (conj eq_refl (conj eq_refl (or_intror (conj eq_refl (six_same _ _)))))).
  - apply no_share_check. vm_compute. reflexivity.
  - apply no_share_check. vm_compute. reflexivity.
  - refine (proj1 (C125_nationwide _ _ _ _ _ _ _ _ _ _ _ _ _ _ _ _ 0 0 _ _ 1 1 _ _ _ _ default_order_ok default_order_ok ex_dates_ok ex_dates_ok F1 F3 I1 I3 S1 S3 T1 T3 P1 P3 eq_refl eq_refl) _).
    exact (conj eq_refl (conj eq_refl (conj eq_refl (or_introl eq_refl)))).
Qed.

(** Row [i] of transaction [k] of one PayPal import and row [i'] of transaction
    [k'] of another, and the posting for one side of each. *)
Theorem C125_paypal ho ho' l l' tz tz' db db' ns ns' rows rows' ts ts' gs gs' k k' ti ti' g g' t t' i i' s s' v v' p q :
  hash_order_ok ho → hash_order_ok ho' → rows_ok rows → rows_ok rows' →
  pp_import ho l tz db ns rows = Ok ts → pp_import ho' l' tz' db' ns' rows' = Ok ts' → runs db rows gs → runs db' rows' gs' →
  gs !! k = Some (ti, g) → gs' !! k' = Some (ti', g') → g !! i = Some v → g' !! i' = Some v' →
  ts !! k = Some t → ts' !! k' = Some t' → t_postings t !! place i s = Some p → t_postings t' !! place i' s' = Some q →
  let same := ns = ns' ∧ i = i' ∧ s = s' ∧ pp_same_hashed v v' ∧ (s = Self ∨ l && l' = true) in
  (same → share_fp (posting_internal_of p) (posting_internal_of q)) ∧
  (share_fp (posting_internal_of p) (posting_internal_of q) → same ∨ sha1_collision (pp_message v i s) (pp_message v' i' s')).
Proof. exact (pp_share ho ho' l l' tz tz' db db' ns ns' rows rows' ts ts' gs gs' k k' ti ti' g g' t t' i i' s s' v v' p q). Qed.
Print Assumptions C125_paypal.
Example C125_paypal_ex : let p l := posting_internal_of (a_post (a_trn (pp_ex l) 0) 2) in let q l := posting_internal_of (a_post (a_trn (pp_ex l) 0) 3) in
  share_fp (p true) (p false) ∧ share_fp (q true) (q true) ∧ ¬ share_fp (q true) (q false).
Proof.
  cbv zeta.
  destruct (pp_ex_at true 2 ltac:(lia)) as (T1 & P1). destruct (pp_ex_at false 2 ltac:(lia)) as (T2 & P2). destruct (pp_ex_at true 3 ltac:(lia)) as (T3 & P3).
  assert (∃ v, take 4 pp_ex_rows !! 1 = Some v) as (v & Hv) by (eexists; reflexivity).
  refine (conj _ (conj _ _)).
  - refine (proj1 (C125_paypal _ _ _ _ _ _ _ _ _ _ _ _ _ _ _ _ 0 0 _ _ _ _ _ _ 1 1 Self Self _ _ _ _ default_order_ok default_order_ok pp_ex_ok pp_ex_ok
      (proj1 (pp_ex_imported true)) (proj1 (pp_ex_imported false)) pp_ex_runs pp_ex_runs eq_refl eq_refl Hv Hv T1 T2 P1 P2) _).
    exact (conj eq_refl (conj eq_refl (conj eq_refl (conj (pp_same_refl v) (or_introl eq_refl))))).
  - refine (proj1 (C125_paypal _ _ _ _ _ _ _ _ _ _ _ _ _ _ _ _ 0 0 _ _ _ _ _ _ 1 1 Peer Peer _ _ _ _ default_order_ok default_order_ok pp_ex_ok pp_ex_ok
      (proj1 (pp_ex_imported true)) (proj1 (pp_ex_imported true)) pp_ex_runs pp_ex_runs eq_refl eq_refl Hv Hv T3 T3 P3 P3) _).
    exact (conj eq_refl (conj eq_refl (conj eq_refl (conj (pp_same_refl v) (or_intror eq_refl))))).
  - apply no_share_check. vm_compute. reflexivity.
Qed.

(** Transaction [k] of one PDF statement, numbered [m], and [k'] of another (or the
    same) one, numbered [m'], and one posting of each. *)
Theorem C125_pdf E E' ho ho' o o' doc doc' ns ns' ts ts' ls ls' skip skip' gs gs' k k' t t' m m' n n' p q :
  hash_order_ok ho → hash_order_ok ho' → env_ok E → env_ok E' →
  pdf_import E ho o doc = Ok (ns, ts) → pdf_import E' ho' o' doc' = Ok (ns', ts') →
  statement_lines E doc ls → statement_lines E' doc' ls' → grouped ls skip gs → grouped ls' skip' gs' →
  ts !! k = Some t → ts' !! k' = Some t' → sequence None 0 gs !! k = Some m → sequence None 0 gs' !! k' = Some m' →
  str_ok (t_description t) → str_ok (t_description t') →
  t_postings t !! n = Some p → t_postings t' !! n' = Some q →
  let same := ns = ns' ∧ t_date t = t_date t' ∧ m = m' ∧ t_description t = t_description t' ∧ p_account p = p_account q ∧ p_amount p = p_amount q in
  (same → share_fp (posting_internal_of p) (posting_internal_of q)) ∧
  (share_fp (posting_internal_of p) (posting_internal_of q) → same ∨
     ∃ a a', posting_is p (p_account p) a ∧ posting_is q (p_account q) a' ∧
       sha1_collision (pdf_message t m (p_account p) a) (pdf_message t' m' (p_account q) a')).
Proof. exact (pdf_share E E' ho ho' o o' doc doc' ns ns' ts ts' ls ls' skip skip' gs gs' k k' t t' m m' n n' p q). Qed.
Print Assumptions C125_pdf.
(** The two transactions of 2 January in the two layouts of one statement: a page
    break between them changes the number of the second. *)
Example C125_pdf_ex : let p b k := posting_internal_of (a_post (a_trn (pdf_trns (ex_doc b)) k) 0) in
  sequence None 0 (pdf_groups (ex_doc true)) = [0; 0; 0] ∧ sequence None 0 (pdf_groups (ex_doc false)) = [0; 0; 1] ∧
  share_fp (p true 1) (p false 1) ∧ share_fp (p true 2) (p false 1) ∧ ¬ share_fp (p true 2) (p false 2).
Proof.
  cbv zeta. split; [vm_compute; reflexivity|]. split; [vm_compute; reflexivity|].
  assert (∀ b k, b = true ∨ b = false → k = 1 ∨ k = 2 → pdf_trns (ex_doc b) !! k = Some (a_trn (pdf_trns (ex_doc b)) k) ∧
    t_postings (a_trn (pdf_trns (ex_doc b)) k) !! 0 = Some (a_post (a_trn (pdf_trns (ex_doc b)) k) 0)) as H.
  { intros b k Hb Hk. destruct Hb as [->| ->], Hk as [->| ->]; (split; vm_compute; reflexivity). }
  destruct (H true 1) as (T1 & P1); [by left|by left|]. destruct (H true 2) as (T2 & P2); [by left|by right|]. destruct (H false 1) as (T3 & P3); [by right|by left|].
  refine (conj _ (conj _ _)).
  - refine (proj1 (C125_pdf pdf_ex_env pdf_ex_env default_order default_order ex_cur ex_cur (ex_doc true) (ex_doc false) _ _ _ _ _ _ _ _ _ _ 1 1 _ _ 0 0 0 0 _ _
      default_order_ok default_order_ok pdf_ex_env_ok pdf_ex_env_ok (proj1 (ex_doc_imported true)) (proj1 (ex_doc_imported false)) (ex_doc_lines true) (ex_doc_lines false)
      (group_up_spec _) (group_up_spec _) T1 T3 _ _ (ex_doc_texts true _ (elem_of_list_lookup_2 _ _ _ T1)) (ex_doc_texts false _ (elem_of_list_lookup_2 _ _ _ T3)) P1 P3) _);
      [vm_compute; reflexivity..|]. refine (conj _ (conj _ (conj _ (conj _ (conj _ _))))); vm_compute; reflexivity.
  - refine (proj1 (C125_pdf pdf_ex_env pdf_ex_env default_order default_order ex_cur ex_cur (ex_doc true) (ex_doc false) _ _ _ _ _ _ _ _ _ _ 2 1 _ _ 0 0 0 0 _ _
      default_order_ok default_order_ok pdf_ex_env_ok pdf_ex_env_ok (proj1 (ex_doc_imported true)) (proj1 (ex_doc_imported false)) (ex_doc_lines true) (ex_doc_lines false)
      (group_up_spec _) (group_up_spec _) T2 T3 _ _ (ex_doc_texts true _ (elem_of_list_lookup_2 _ _ _ T2)) (ex_doc_texts false _ (elem_of_list_lookup_2 _ _ _ T3)) P2 P3) _);
      [vm_compute; reflexivity..|]. refine (conj _ (conj _ (conj _ (conj _ (conj _ _))))); vm_compute; reflexivity.
  - apply no_share_check. vm_compute. reflexivity.
Qed.

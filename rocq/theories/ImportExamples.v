(** Statements and rows used beside the theorems about importers. *)
From Verif Require Import MergeClaims.
From Verif Require Import Base Types SpecBase BaseProofs CommentModel MergeModel Sha1 FingerprintModel NwCsvModel TzModel PaypalModel
  CommentClaims FingerprintClaims ImportClaims ImportProofs ImportRows ImportLaws ImportPaypal TestsImport.
From Coq Require Import Lia QArith.
Local Open Scope nat_scope.

Definition date_okb (d : date) : bool :=
  let '(y, m, d) := d in
  ((-262144 <=? y) && (y <=? 262143))%Z && ((1 <=? m) && (m <=? 12) && (1 <=? d) && (d <=? 31))%N.
Definition ex_dates : date_parser := λ s,
  match test_dates s with Some d => if date_okb d then Some d else None | None => None end.
Lemma ex_dates_ok : parser_ok ex_dates.
Proof.
  intros s d. unfold ex_dates. destruct (test_dates s) as [d'|]; [|done]. destruct (date_okb d') eqn:E; [|done].
  intros [= <-]. destruct d' as [[y m] d]. unfold date_okb in E. unfold date_ok.
  repeat (apply andb_true_iff in E as [E ?] || match goal with H : _ && _ = true |- _ => apply andb_true_iff in H as [? ?] end).
  repeat match goal with H : (_ <=? _)%Z = true |- _ => apply Z.leb_le in H | H : (_ <=? _)%N = true |- _ => apply N.leb_le in H end.
  lia.
Qed.
Definition str_okb (s : str) : bool := forallb (λ c, (c <? 1114112)%N) s && (utf8_len s <? 2 ^ 64)%N.
Definition field_okb (s : str) : bool := str_okb s && forallb (λ c, negb (c =? NL)%N) s.
Lemma no_newline s : forallb (λ c, negb (c =? NL)%N) s = true → newline ∉ s.
Proof.
  intros H E. rewrite forallb_forall in H. apply elem_of_list_In, H in E. unfold newline in E. done.
Qed.
Lemma field_ok_check s : field_okb s = true → str_ok s ∧ newline ∉ s.
Proof.
  unfold field_okb, str_okb. intros [[H1 H2]%andb_true_iff H3]%andb_true_iff. split; [by apply str_ok_check|by apply no_newline].
Qed.
Lemma fields_ok_check rs : forallb (λ r, forallb field_okb r) rs = true → fields_ok rs.
Proof.
  intros H r f Hr Hf. rewrite forallb_forall in H. apply elem_of_list_In, H in Hr. rewrite forallb_forall in Hr.
  by apply elem_of_list_In, Hr, field_ok_check in Hf.
Qed.

(** Two equal payments on one day, one on the next. *)
Definition ex_head : list csv_record :=
  [ [s2l "Account Name:"; s2l "Current"]; [s2l "Account Balance:"; gbp "150.00"]; [s2l "Available Balance:"; gbp "150.00"];
    [s2l "Date"; s2l "Transactions"; s2l "Location"; s2l "Paid out"; s2l "Paid in"] ].
Definition ex_row (d desc : string) (m : string) : csv_record := [s2l d; s2l desc; []; gbp m; []].
Definition ex_rows : list csv_record :=
  [ ex_row "01 Sep 2021" "COFFEE" "2.50"; ex_row "01 Sep 2021" "COFFEE" "2.50"; ex_row "02 Sep 2021" "TEA" "1.20" ].
(** The same with the second payment after the one of the next day. *)
Definition ex_bad_rows : list csv_record :=
  [ ex_row "01 Sep 2021" "COFFEE" "2.50"; ex_row "02 Sep 2021" "TEA" "1.20"; ex_row "01 Sep 2021" "COFFEE" "2.50" ].
Definition ex_opts : nw_opts := NwOpts false (NsFixed (s2l "cur")).
Definition ex_record (d : N) (t : string) (m : N) : nw_record :=
  Five (RecordFive (2021%Z, 9%N, d) (s2l t) [] (Some (Amount (Dec false 2 m) GBP)) None).
Definition ex_records : list nw_record := [ex_record 1 "COFFEE" 250; ex_record 1 "COFFEE" 250; ex_record 2 "TEA" 120].
Definition ex_bad_records : list nw_record := [ex_record 1 "COFFEE" 250; ex_record 2 "TEA" 120; ex_record 1 "COFFEE" 250].
Definition rok {A} (r : result A) (d : A) : A := match r with Ok x => x | _ => d end.
Definition ex_trns : list transaction := snd (rok (nw_csv_import ex_dates default_order ex_opts (ex_head ++ ex_rows)) ([], [])).
Definition ex_bad_trns : list transaction := snd (rok (nw_csv_import ex_dates default_order ex_opts (ex_head ++ ex_bad_rows)) ([], [])).
Lemma ex_imported : nw_csv_import ex_dates default_order ex_opts (ex_head ++ ex_rows) = Ok (s2l "cur", ex_trns) ∧ length ex_trns = 3.
Proof. split; by_compute. Qed.
Lemma ex_bad_imported : nw_csv_import ex_dates default_order ex_opts (ex_head ++ ex_bad_rows) = Ok (s2l "cur", ex_bad_trns).
Proof. by_compute. Qed.
Lemma ex_fields : fields_ok (ex_head ++ ex_rows) ∧ fields_ok (ex_head ++ ex_bad_rows).
Proof. split; by apply fields_ok_check. Qed.
Lemma ex_reads rows rs : rmapM (λ r, rmap Five (de_five ex_dates r)) rows = Ok rs → statement_reads ex_dates (ex_head ++ rows) (s2l "Current") rs.
Proof.
  intros H. eexists [], _, _, FiveColumns, rows. split; [reflexivity|].
  revert rs H. induction rows as [|r rows IH]; intros rs; cbn [rmapM].
  - intros E. apply Ok_inj in E as <-. constructor.
  - intros (x & Hx & (xs & Hxs & E)%rbind_ok)%rbind_ok. apply Ok_inj in E as <-. constructor; [by apply read_row_five|by apply IH].
Qed.
Lemma ex_statement : statement_reads ex_dates (ex_head ++ ex_rows) (s2l "Current") ex_records.
Proof. apply ex_reads. vm_compute. reflexivity. Qed.
Lemma ex_bad_statement : statement_reads ex_dates (ex_head ++ ex_bad_rows) (s2l "Current") ex_bad_records.
Proof. apply ex_reads. vm_compute. reflexivity. Qed.
Lemma ex_contiguous : contiguous (rec_date <$> ex_records).
Proof.
  intros i j k d Hij Hjk. destruct k as [|[|[|k]]]; [lia|lia|..]; cbn; [|done].
  assert (i = 0 ∧ j = 1) as [-> ->] by lia. done.
Qed.
Definition post_at (ts : list transaction) (n : nat) : option posting_internal := all_posts (as_merged ts) !! n.
Lemma share_check p q f : is_fingerprint f = true → bool_decide (f ∈ tags (pi_comment p)) = true →
  bool_decide (f ∈ tags (pi_comment q)) = true → share_fp p q.
Proof. rewrite MergeProofs.is_fingerprint_spec, !bool_decide_eq_true. intros. exists f. by split. Qed.
Lemma share_at ts i j x : is_fingerprint x = true →
  (λ p, bool_decide (x ∈ tags (pi_comment p))) <$> post_at ts i = Some true →
  (λ p, bool_decide (x ∈ tags (pi_comment p))) <$> post_at ts j = Some true →
  ∃ p q, all_posts (as_merged ts) !! i = Some p ∧ all_posts (as_merged ts) !! j = Some q ∧ share_fp p q.
Proof.
  unfold post_at. intros Hx H1 H2. destruct (all_posts _ !! i) as [p|]; [|done]. destruct (all_posts _ !! j) as [q|]; [|done].
  exists p, q. split_and!; [done|done|]. injection H1 as H1. injection H2 as H2. by apply (share_check p q x).
Qed.
Lemma ex_bad_shared : ∃ p q, all_posts (as_merged ex_bad_trns) !! 0 = Some p ∧ all_posts (as_merged ex_bad_trns) !! 4 = Some q ∧
  share_fp p q.
Proof.
  apply (share_at ex_bad_trns 0 4 (tag (builder_build (Builder (five_message (RecordFive (2021%Z, 9%N, 1%N) (s2l "COFFEE") []
    (Some (Amount (Dec false 2 250) GBP)) None) 0 Self) (s2l "nwcsv5") 1 (s2l "cur"))))); vm_compute; reflexivity.
Qed.

(** Two rows at one time, one later. *)
Definition ex_db : tz_db := rok (tz_from_rows [(s2l "GMT", s2l "UTC+00")]) ∅.
Definition pp_ex_rows : list pp_row := pp_test_rows.
Definition pp_ex (legacy : bool) : list transaction := rok (pp_import default_order legacy test_tz ex_db (s2l "paypal") pp_ex_rows) [].
Lemma pp_ex_imported legacy : pp_import default_order legacy test_tz ex_db (s2l "paypal") pp_ex_rows = Ok (pp_ex legacy) ∧
  length (pp_ex legacy) = 2.
Proof. destruct legacy; split; by_compute. Qed.
Definition pp_ex_t1 : instant := (1546305825%Z, 0%N).
Definition pp_ex_t2 : instant := (1546432496%Z, 0%N).
Definition pp_ex_groups : list (instant * list pp_row) := [(pp_ex_t1, take 4 pp_ex_rows); (pp_ex_t2, drop 4 pp_ex_rows)].
Definition instant_of (db : tz_db) (r : pp_row) : option instant :=
  (λ o, local_instant (pr_date r) (pr_time r) o) <$> abbr_to_tz db (pr_time_zone r).
Lemma instant_check db t g : forallb (λ r, bool_decide (instant_of db r = Some t)) g = true → ∀ r, r ∈ g → row_instant db r t.
Proof.
  intros H r Hr. rewrite forallb_forall in H. apply elem_of_list_In, H, bool_decide_eq_true in Hr. unfold instant_of in Hr.
  destruct (abbr_to_tz db _) as [o|] eqn:E; [|done]. cbn in Hr. injection Hr as <-. by exists o.
Qed.
Lemma pp_ex_runs : runs ex_db pp_ex_rows pp_ex_groups.
Proof.
  constructor.
  - vm_compute; reflexivity.
  - intros t g [[= -> ->]|[[= -> ->]|E%elem_of_nil]%elem_of_cons]%elem_of_cons; done.
  - intros t g r [[= -> ->]|[[= -> ->]|E%elem_of_nil]%elem_of_cons]%elem_of_cons; [..|done];
      apply instant_check; vm_compute; reflexivity.
  - intros i t g t' g' H1 H2. destruct i as [|i]; [|by destruct i]. injection H1 as <- <-. injection H2 as <- <-. discriminate.
Qed.
Definition opt_check {A} (f : A → bool) (o : option A) : bool := match o with Some x => f x | None => true end.
Definition pp_row_okb (r : pp_row) : bool :=
  let '(h, m, s, n) := pr_time r in
  let dec d := ((d_scale d <=? 28) && (d_mant d <? 2 ^ 96))%N in
  date_okb (pr_date r) && ((h <? 24) && (m <? 60) && (s <? 60) && (n <? 2000000000))%N &&
  str_okb (pr_time_zone r) && opt_check field_okb (pr_name r) && field_okb (pr_type r) && str_okb (pr_currency r) &&
  dec (pr_amount r) && dec (pr_balance r) && opt_check field_okb (pr_receipt_id r).
Lemma date_okb_ok d : date_okb d = true → date_ok d.
Proof.
  destruct d as [[y m] d]. unfold date_okb, date_ok.
  intros [[Hy1%Z.leb_le Hy2%Z.leb_le]%andb_true_iff [[[Hm1%N.leb_le Hm2%N.leb_le]%andb_true_iff Hd1%N.leb_le]%andb_true_iff Hd2%N.leb_le]%andb_true_iff]%andb_true_iff.
  done.
Qed.
Lemma rows_ok_check rows : forallb pp_row_okb rows = true → (N.of_nat (length rows) <? 2 ^ 64)%N = true → rows_ok rows.
Proof.
  intros H Hl%N.ltb_lt. split; [done|]. intros r Hr. rewrite forallb_forall in H. apply elem_of_list_In, H in Hr. clear H.
  destruct r as [d t tz n ty st cu a rc b]. unfold pp_row_okb in Hr. cbn [pr_date pr_time pr_time_zone pr_name pr_type pr_currency pr_amount pr_balance pr_receipt_id] in *.
  destruct t as [[[h m] s] ns].
  repeat match goal with H : _ && _ = true |- _ => apply andb_true_iff in H as [? ?] end.
  repeat match goal with H : (_ <? _)%N = true |- _ => apply N.ltb_lt in H | H : (_ <=? _)%N = true |- _ => apply N.leb_le in H end.
  assert (∀ o, opt_check field_okb o = true → opt_ok str_ok o ∧ opt_ok (λ s, newline ∉ s) o) as Ho.
  { intros [x|] Hx; [|by split; intros ? ?]. apply field_ok_check in Hx as [? ?]. by split; intros ? [= <-]. }
  repeat match goal with H : opt_check field_okb _ = true |- _ => apply Ho in H as [? ?] | H : field_okb _ = true |- _ => apply field_ok_check in H as [? ?] end.
  assert (∀ s, str_okb s = true → str_ok s) as Hs by (intros x [? ?]%andb_true_iff; by apply str_ok_check).
  unfold pp_row_ok. cbn. split_and!; auto using date_okb_ok; try done.
Qed.
Lemma pp_ex_ok : rows_ok pp_ex_rows.
Proof. apply rows_ok_check; vm_compute; reflexivity. Qed.
(** No two of the messages hashed for the examples collide. *)
Definition msg_of (p : nat * nat * side) : list N :=
  match ex_records !! p.1.1 with Some (Five r) => five_message r (Z.of_nat p.1.2) p.2 | _ => [] end.
Lemma ex_no_collision : ¬ statement_collides ex_records.
Proof.
  set (all := [(0, 0, Self); (0, 0, Peer); (1, 1, Self); (1, 1, Peer); (2, 0, Self); (2, 0, Peer)]).
  assert (∀ i r m, ex_records !! i = Some r → row_message r (day_number (rec_date <$> ex_records) i) m → m ∈ msg_of <$> all) as Hall.
  { intros i r m Hi Hm. apply elem_of_list_fmap. destruct i as [|[|[|i]]]; [..|done]; injection Hi as <-;
      destruct Hm as (s & ->); destruct s.
    - exists (0, 0, Self). split; [reflexivity|]. unfold all. do 0 right. left.
    - exists (0, 0, Peer). split; [reflexivity|]. unfold all. do 1 right. left.
    - exists (1, 1, Self). split; [reflexivity|]. unfold all. do 2 right. left.
    - exists (1, 1, Peer). split; [reflexivity|]. unfold all. do 3 right. left.
    - exists (2, 0, Self). split; [reflexivity|]. unfold all. do 4 right. left.
    - exists (2, 0, Peer). split; [reflexivity|]. unfold all. do 5 right. left. }
  assert (NoDup (sha1 <$> (msg_of <$> all))) as Hnd by by_compute.
  intros (i & j & r & r' & m & m' & Hi & Hj & Hm & Hm' & Hne & E).
  apply (Hall _ _ _ Hi) in Hm as (k & Hk)%elem_of_list_lookup. apply (Hall _ _ _ Hj) in Hm' as (k' & Hk')%elem_of_list_lookup.
  assert (k = k') as ->.
  { eapply (NoDup_lookup _ k k' (sha1 m)); [exact Hnd|..]; rewrite list_lookup_fmap; [by rewrite Hk|by rewrite Hk', E]. }
  rewrite Hk in Hk'. by injection Hk'.
Qed.
Definition all_messages (gs : list (instant * list pp_row)) : list (list N) :=
  mjoin ((λ tg, mjoin (imap (λ i r, [pp_message r i Self; pp_message r i Peer]) tg.2)) <$> gs).
Lemma no_collision_check gs : NoDup (sha1 <$> all_messages gs) → ¬ groups_collide gs.
Proof.
  intros Hnd.
  assert (∀ k t g i r s, gs !! k = Some (t, g) → g !! i = Some r → pp_message r i s ∈ all_messages gs) as Hall.
  { intros k t g i r s Hk Hi. unfold all_messages. apply elem_of_list_join. eexists. split; [|apply elem_of_list_fmap; exists (t, g); split; [reflexivity|by eapply elem_of_list_lookup_2]].
    apply elem_of_list_join. exists [pp_message r i Self; pp_message r i Peer]. split; [destruct s; [left|right; left]|].
    apply elem_of_lookup_imap. by exists i, r. }
  intros (k & k' & i & i' & t & t' & g & g' & r & r' & s & s' & Hk & Hk' & Hi & Hi' & Hne & E).
  pose proof (Hall _ _ _ _ _ s Hk Hi) as (n & Hn)%elem_of_list_lookup. pose proof (Hall _ _ _ _ _ s' Hk' Hi') as (n' & Hn')%elem_of_list_lookup.
  assert (n = n') as ->.
  { eapply (NoDup_lookup _ n n' (sha1 (pp_message r i s))); [exact Hnd|..]; rewrite list_lookup_fmap; [by rewrite Hn|by rewrite Hn', E]. }
  rewrite Hn in Hn'. by injection Hn'.
Qed.
Lemma pp_ex_no_collision : ¬ groups_collide pp_ex_groups.
Proof. apply no_collision_check. by_compute. Qed.

(** Without legacy fingerprints peer postings have none. *)
Lemma no_fp_check p : forallb (λ t, negb (is_fingerprint t)) (elements (tags (from_opt_comment (p_comment p)))) = true → ¬ fingerprinted p.
Proof.
  intros H (f & Hf%MergeProofs.is_fingerprint_spec & Ht). unfold has_tag in Ht. cbn in Ht. rewrite forallb_forall in H.
  apply elem_of_elements, elem_of_list_In, H in Ht. by rewrite Hf in Ht.
Qed.
Lemma no_fp_at (ts : list transaction) : (λ t, (λ p, forallb (λ t, negb (is_fingerprint t)) (elements (tags (from_opt_comment (p_comment p))))) <$> t_postings t !! 1) <$>
    ts !! 0 = Some (Some true) → ∃ t p, t ∈ ts ∧ p ∈ t_postings t ∧ ¬ fingerprinted p.
Proof.
  intros H. destruct (ts !! 0) as [t|] eqn:Et; [|done]. cbn in H. destruct (t_postings t !! 1) as [p|] eqn:Ep; [|done]. cbn in H.
  injection H as H. exists t, p. split_and!; [by eapply elem_of_list_lookup_2|by eapply elem_of_list_lookup_2|by apply no_fp_check].
Qed.
Lemma pp_ex_missing : ∃ t p, t ∈ pp_ex false ∧ p ∈ t_postings t ∧ ¬ fingerprinted p.
Proof. apply no_fp_at. by_compute. Qed.
Lemma not_merged_check ts : match (merge default_order merger_new ts).2 with Err _ => true | _ => false end = true →
  ∃ m e, merge default_order merger_new ts = (m, Err e).
Proof. destruct (merge _ _ _) as [m [| e |]]; try done. by exists m, e. Qed.
Lemma pp_ex_not_merged : ∃ m e, merge default_order merger_new (as_merged (pp_ex false)) = (m, Err e).
Proof. apply not_merged_check. vm_compute. reflexivity. Qed.

(** Statements with balances, for the examples beside C131. *)
From Verif Require Import MergeClaims.
From stdpp Require Import gmap list.
From Verif Require Import Base Types SpecBase BaseProofs CommentModel MergeModel CmdModel Sha1 FingerprintModel NwCsvModel TzModel PaypalModel
  CommentClaims FingerprintClaims CmdClaims ImportClaims ImportLaws EditClaims WindowClaims StatementClaims CommentExamples MergeExamples ImportExamples TestsImport WorkflowExamples CmdExamples
  ImportProofs ImportRows SameFpExamples OcrModel PdfModel PdfClaims PdfExamples PdfDaysClaims PdfDaysExamples
  RulesModel RulesClaims RulesProofs RulesLaws RulesLoad RulesCmd RulesExamples CmdIdem HeaderClaims ImporterModel WorkCmdClaims WorkCmd WorkCmdExamples PipeClaims Pipe PipeExamples
  AssertClaims Assert.
From Coq Require Import Lia QArith.
Local Open Scope nat_scope.

(** Checking balances. *)
Definition adds_upb (start : commodity → Q) (es : list bank_entry) : bool :=
  forallb (λ i, match en_balance <$> es !! i with
    | Some (Some b) => Qeq_bool (dec_value (a_quantity b)) (start (a_commodity b) + entries_value (a_commodity b) (take (S i) es))
    | _ => true end) (seq 0 (length es)).
Lemma adds_up_check start es : adds_upb start es = true → adds_up start es.
Proof.
  intros H before e after b -> Hb. unfold adds_upb in H. rewrite forallb_forall in H.
  specialize (H (length before)). rewrite list_lookup_middle in H by done. cbn [fmap option_fmap option_map] in H. rewrite Hb in H.
  assert (take (S (length before)) (before ++ e :: after) = before ++ [e]) as E.
  { rewrite firstn_app. rewrite take_ge by lia. f_equal. by replace (S (length before) - length before) with 1 by lia. }
  rewrite E in H. apply Qeq_bool_iff, H. apply in_seq. rewrite app_length. cbn [length]. lia.
Qed.

(** Four payments on three days. *)
Definition ab_row (d desc paid_out paid_in bal : string) : csv_record :=
  [s2l d; s2l "Card"; s2l desc; match paid_out with EmptyString => [] | _ => gbp paid_out end; match paid_in with EmptyString => [] | _ => gbp paid_in end; gbp bal].
Definition ab_rows : list (list csv_record) :=
  [ [ab_row "01 Sep 2021" "COFFEE" "2.50" "" "97.50"; ab_row "01 Sep 2021" "COFFEE" "2.50" "" "95.00"];
    [ab_row "02 Sep 2021" "PAY" "" "10.00" "105.00"]; [ab_row "03 Sep 2021" "TEA" "1.20" "" "103.80"] ].
Definition ab_record (d : N) (desc : string) (paid_out paid_in : option N) (bal : N) : nw_record :=
  let am n := Amount (Dec false 2 n) GBP in
  Six (RecordSix (2021%Z, 9%N, d) (s2l "Card") (s2l desc) (am <$> paid_out) (am <$> paid_in) (am bal)).
Definition ab_days : list (list nw_record) :=
  [ [ab_record 1 "COFFEE" (Some 250%N) None 9750; ab_record 1 "COFFEE" (Some 250%N) None 9500];
    [ab_record 2 "PAY" None (Some 1000%N) 10500]; [ab_record 3 "TEA" (Some 120%N) None 10380] ].
Definition ab_entries : list bank_entry :=
  let en neg n b := BankEntry (Amount (Dec neg 2 n) GBP) (Some (Amount (Dec false 2 b) GBP)) in
  [en true 250%N 9750%N; en true 250%N 9500%N; en false 1000%N 10500%N; en true 120%N 10380%N].
Definition ab_start (c : commodity) : Q := if decide (c = GBP) then 100 # 1 else 0.
Definition ab_import (w : list nat) : list transaction :=
  snd (rok (nw_csv_import ex_dates reverse_order (six_opts false) (six_head ++ window ab_rows w)) ([], [])).
Lemma ab_reads w : rmapM (λ r, rmap Six (de_six ex_dates r)) (window ab_rows w) = Ok (window ab_days w) →
  statement_reads ex_dates (six_head ++ window ab_rows w) (s2l "Current") (window ab_days w).
Proof. intros H. by apply six_statement. Qed.
Lemma ab_statement w : NoDup w → forallb (λ r, forallb field_okb r) (six_head ++ window ab_rows w) = true →
  rmapM (λ r, rmap Six (de_six ex_dates r)) (window ab_rows w) = Ok (window ab_days w) →
  nw_csv_import ex_dates reverse_order (six_opts false) (six_head ++ window ab_rows w) = Ok (s2l "cur", ab_import w) →
  nw_statement ex_dates (six_opts false) (s2l "Current") ab_days w (ab_import w).
Proof.
  intros Hnd Hf Hr Hi. split; [done|]. exists reverse_order, (six_head ++ window ab_rows w), (s2l "cur").
  split_and!; [exact reverse_order_ok|by apply fields_ok_check|by apply ab_reads|done].
Qed.
Lemma ab_01 : nw_statement ex_dates (six_opts false) (s2l "Current") ab_days [0; 1] (ab_import [0; 1]).
Proof. apply ab_statement; [by_compute|vm_compute; reflexivity|vm_compute; reflexivity|vm_compute; reflexivity]. Qed.
Lemma ab_21 : nw_statement ex_dates (six_opts false) (s2l "Current") ab_days [2; 1] (ab_import [2; 1]).
Proof. apply ab_statement; [by_compute|vm_compute; reflexivity|vm_compute; reflexivity|vm_compute; reflexivity]. Qed.
Lemma ab_all : nw_statement ex_dates (six_opts false) (s2l "Current") ab_days [0; 1; 2] (ab_import [0; 1; 2]).
Proof. apply ab_statement; [by_compute|vm_compute; reflexivity|vm_compute; reflexivity|vm_compute; reflexivity]. Qed.
Lemma ab_days_ok : days rec_date ab_days.
Proof.
  assert (∀ i D a, ab_days !! i = Some D → a ∈ D → rec_date a = (2021%Z, 9%N, N.of_nat (S i))) as H.
  { intros i D a Hi Ha. destruct i as [|[|[|i]]]; [..|done]; injection Hi as <-;
      repeat (apply elem_of_cons in Ha as [->|Ha]; [reflexivity|]); by apply elem_of_nil in Ha. }
  intros i k D E a b HD HE Ha Hb. rewrite (H _ _ _ HD Ha), (H _ _ _ HE Hb). split; [|by intros ->]. intros [= E1]. lia.
Qed.
Definition six_messages (rs : list nw_record) : list (list N) :=
  mjoin (imap (λ i r, match r with
    | Six r => let n := Z.of_nat (day_number (rec_date <$> rs) i) in
        (six_message r n <$> [Self; Peer]) ++
        match self_amount_of (r6_paid_in r) (r6_paid_out r) with
        | Ok a => (λ s, legacy_message r n (FingerprintClaims.pick s (self_and_peer_account_amount a (s2l "assets:unknown")))) <$> [Self; Peer]
        | _ => [] end
    | _ => [] end) rs).
Lemma six_check rs : forallb (λ r, match r with Six _ => true | _ => false end) rs = true →
  NoDup (sha1 <$> six_messages rs) → ¬ statement_collides rs.
Proof.
  intros Hf Hnd. rewrite forallb_forall in Hf.
  assert (∀ i r m, rs !! i = Some r → row_message r (day_number (rec_date <$> rs) i) m → m ∈ six_messages rs) as Hall.
  { intros i r m Hi Hm. specialize (Hf r ltac:(by eapply elem_of_list_In, elem_of_list_lookup_2)). destruct r as [|r]; [done|].
    apply elem_of_list_join. eexists. split; [|apply elem_of_lookup_imap; exists i, (Six r); split; [reflexivity|done]].
    cbv zeta. apply elem_of_app. destruct Hm as [(s & ->)|(s & a & Ha & ->)].
    - left. apply elem_of_list_fmap. exists s. split; [done|]. destruct s; [left|right; left].
    - right. rewrite Ha. apply elem_of_list_fmap. exists s. split; [done|]. destruct s; [left|right; left]. }
  intros (i & j & r & r' & m & m' & Hi & Hj & Hm & Hm' & Hne & E).
  apply (Hall _ _ _ Hi) in Hm as (k & Hk)%elem_of_list_lookup. apply (Hall _ _ _ Hj) in Hm' as (k' & Hk')%elem_of_list_lookup.
  assert (k = k') as ->.
  { eapply (NoDup_lookup _ k k' (sha1 m)); [exact Hnd|..]; rewrite list_lookup_fmap; [by rewrite Hk|by rewrite Hk', E]. }
  rewrite Hk in Hk'. by injection Hk'.
Qed.
Lemma ab_no_collision : ¬ statement_collides (window ab_days [0; 1; 2]).
Proof. apply six_check; [vm_compute; reflexivity|by_compute]. Qed.
Lemma ab_says : Forall2 nw_entry (stable_sort (by_key rec_date) (window ab_days [0; 1; 2])) ab_entries.
Proof.
  assert (stable_sort (by_key rec_date) (window ab_days [0; 1; 2]) = window ab_days [0; 1; 2]) as -> by (vm_compute; reflexivity).
  assert (∀ n, opposite (Amount (Dec false 2 n) GBP) (Amount (Dec true 2 n) GBP)) as Ho.
  { intros n. split; [reflexivity|]. apply (negate_opposite (Amount (Dec false 2 n) GBP)). }
  unfold ab_entries. repeat (apply List.Forall2_cons; [split; [reflexivity|]|]); [| | | |constructor].
  1, 2, 4: right; split; [reflexivity|]; eexists; split; [reflexivity|]; apply Ho.
  left. split; reflexivity.
Qed.
Lemma ab_adds_up : adds_up ab_start ab_entries.
Proof. apply adds_up_check. vm_compute. reflexivity. Qed.
Lemma ab_covers : covers [[0; 1]; [2; 1]] [0; 1; 2].
Proof. apply covers_check; by_compute. Qed.

(** Rules: accounts for the statement's side and for coffee. *)
Definition ab_rules : list rule :=
  [ rule1 (PHasFlagTag (s2l "import-self")) (ASetAccount (s2l "assets:current"));
    rule2 (PNot (PHasFlagTag (s2l "import-self"))) (ASetAccount (s2l "expenses:food")) ].
Definition ab_open (p : str) : option (list RulesModel.entry) := if str_eqb p (s2l "/r") then Some [EChain (s2l "start") ab_rules] else None.
Definition ab_F : rules_fs := RulesFs ab_open (λ p, if ab_open p then Some p else None) (λ _, Some (s2l "/")) (λ d p, d ++ p).
Lemma ab_one : one_file ab_F.
Proof. intros p q. cbn [rf_canonical ab_F]. destruct (ab_open p); [|discriminate]. intros [= ->]. done. Qed.
Definition ab_loaded_T : table := match load_from_path ab_F default_order 7 (s2l "/r") with Some (Ok T) => T | _ => ∅ end.
Lemma ab_loads : load_from_path ab_F default_order 7 (s2l "/r") = Some (Ok ab_loaded_T).
Proof. vm_compute. reflexivity. Qed.
Lemma ab_loaded : rules_loaded ab_F (s2l "/r") ab_loaded_T.
Proof. eapply load_from_path_ok; [exact default_order_ok|exact ab_one|exact ab_loads]. Qed.
Lemma ab_leaves : leaves_fingerprints ab_loaded_T.
Proof. apply leaves_check. vm_compute. reflexivity. Qed.
Definition ab_J (ts : list transaction) : list transaction_postings :=
  match update_transactions rx_X default_order ab_loaded_T 7 (as_merged ts) with Some (Ok J) => J | _ => [] end.
Lemma ab_ruled_is ts J : update_transactions rx_X default_order ab_loaded_T 7 (as_merged ts) = Some (Ok (ab_J ts)) →
  ruled rx_X ab_loaded_T (as_merged ts) J → J = ab_J ts.
Proof.
  intros H HJ. eapply ruled_det; [exact HJ|]. apply (c54_journal rx_X default_order); [exact default_order_ok|apply ab_loaded|by exists 7].
Qed.
Lemma ab_ruled ts : update_transactions rx_X default_order ab_loaded_T 7 (as_merged ts) = Some (Ok (ab_J ts)) →
  ruled rx_X ab_loaded_T (as_merged ts) (ab_J ts).
Proof. intros H. apply (c54_journal rx_X default_order); [exact default_order_ok|apply ab_loaded|by exists 7]. Qed.
Definition puts_onb (A : str) (tps J : list transaction_postings) : bool :=
  bool_decide ((λ tp, (λ p, bool_decide (p_account (pi_raw p) = s2l "assets:unknown")) <$> tp_posts tp) <$> tps =
               (λ tp, (λ p, bool_decide (p_account (pi_raw p) = A)) <$> tp_posts tp) <$> J).
Lemma puts_on_check A tps J : puts_onb A tps J = true → puts_on A tps J.
Proof.
  intros H%bool_decide_eq_true. revert J H. induction tps as [|tp tps IH]; intros [|tp' J] H; try discriminate H; [by constructor|].
  rewrite !fmap_cons in H. assert (∀ A (x y : A) l m, x :: l = y :: m → x = y ∧ l = m) as inj by (intros ????? [=]; done).
  apply inj in H as [H1 H2]. apply List.Forall2_cons; [|by apply IH]. clear -H1 inj. revert H1. generalize (tp_posts tp) (tp_posts tp').
  intros ps. induction ps as [|p ps IH]; intros [|p' ps'] H; try discriminate H; [by constructor|].
  rewrite !fmap_cons in H. apply inj in H as [H1 H2]. apply List.Forall2_cons; [|by apply IH].
  split; intros E.
  - destruct (bool_decide_reflect (p_account (pi_raw p) = s2l "assets:unknown")); [done|]. by rewrite bool_decide_eq_true_2 in H1.
  - destruct (bool_decide_reflect (p_account (pi_raw p') = A)); [done|]. by rewrite bool_decide_eq_true_2 in H1.
Qed.
Lemma ab_puts ts : update_transactions rx_X default_order ab_loaded_T 7 (as_merged ts) = Some (Ok (ab_J ts)) →
  puts_onb (s2l "assets:current") (as_merged ts) (ab_J ts) = true →
  ∀ J, ruled rx_X ab_loaded_T (as_merged ts) J → puts_on (s2l "assets:current") (as_merged ts) J.
Proof. intros H1 H2 J HJ. rewrite (ab_ruled_is _ _ H1 HJ). by apply puts_on_check. Qed.

(** Commands. *)
Definition ab_codec : codec :=
  [(s2l "A", ledger_from_transactions (ab_import [0; 1])); (s2l "B", ledger_from_transactions (ab_import [2; 1]));
   (s2l "RA", into_ledger default_order (ab_J (ab_import [0; 1]))); (s2l "RB", into_ledger default_order (ab_J (ab_import [2; 1])));
   (s2l "RAB", into_ledger default_order (stable_sort (by_key tp_date) (ab_J (ab_import [0; 1; 2]))))].
Definition ab_env : env := ex_env ab_codec.
Definition ab_V : csv_env := CsvEnv
  (λ t, if str_eqb t (s2l "csv1") then Some (six_head ++ window ab_rows [0; 1])
        else if str_eqb t (s2l "csv2") then Some (six_head ++ window ab_rows [2; 1]) else None)
  (λ t, None) (λ t, None).
Definition ab_w : world := World {[ s2l "1.csv" := s2l "csv1"; s2l "2.csv" := s2l "csv2"; s2l "a" := s2l "OLD" ]} ∅ [] [].
Definition ab_ss : list statement_file :=
  [StatementFile default_order (s2l "1.csv") (s2l "a") [0; 1]; StatementFile reverse_order (s2l "2.csv") (s2l "b") [2; 1]].
Definition ab_tss : list (list transaction) := [ab_import [0; 1]; ab_import [2; 1]].
Definition ab_imported (w : world) (runs : list (io import * str)) : world :=
  foldl (λ w r, steps w (import_cmd ab_env r.1 (Path r.2) false false w).1) w runs.
Lemma ab_imports_check w runs tss :
  (fix go w runs tss := match runs, tss with
    | [], [] => true
    | r :: runs, ts :: tss =>
        match r.1 w, import_cmd ab_env r.1 (Path r.2) false false w with
        | (_, Ok i), (es, Ok _) => bool_decide (im_transactions i = ts) && go (steps w es) runs tss
        | _, _ => false
        end
    | _, _ => false
    end) w runs tss = true → imports ab_env w runs tss (ab_imported w runs).
Proof.
  revert w tss. induction runs as [|[imp out] runs IH]; intros w [|ts tss] H; try done; [constructor|].
  cbn [fst snd] in H. destruct (imp w) as [es0 [[ns ts0]|e|]] eqn:E1; [|done..].
  destruct (import_cmd ab_env imp (Path out) false false w) as [es [[]|e|]] eqn:E2; [|done..].
  apply andb_true_iff in H as [H1 H2]. apply bool_decide_eq_true in H1. cbn [im_transactions] in H1. subst ts0.
  unfold ab_imported. cbn [foldl fst snd]. rewrite E2. cbn [fst]. econstructor; [exact E1|exact E2|]. by apply IH.
Qed.
Definition ab_ran (w : world) (rs : list rules_run) : world :=
  foldl (λ w r, steps w (rules_cmd ab_env rx_X ab_F (rr_order r) (rr_fuel r) (s2l "/r") (Path (rr_in r)) (Path (rr_out r)) w).1) w rs.
Lemma ab_rulings_check w rs : Forall (λ r, hash_order_ok (rr_order r)) rs →
  (fix go w rs := match rs with
    | [] => true
    | r :: rs =>
        match rules_cmd ab_env rx_X ab_F (rr_order r) (rr_fuel r) (s2l "/r") (Path (rr_in r)) (Path (rr_out r)) w with
        | (es, Ok (Some _)) => go (steps w es) rs
        | _ => false
        end
    end) w rs = true → rulings ab_env rx_X ab_F (s2l "/r") w rs (ab_ran w rs).
Proof.
  intros Hf. revert w. induction Hf as [|r rs Hho Hf IH]; intros w H; [constructor|].
  destruct (rules_cmd ab_env rx_X ab_F (rr_order r) (rr_fuel r) (s2l "/r") (Path (rr_in r)) (Path (rr_out r)) w) as [es [[[]|]|e|]] eqn:E; [|done..].
  unfold ab_ran. cbn [foldl]. rewrite E. cbn [fst]. econstructor; [done|exact E|]. by apply IH.
Qed.
Definition ab_w1 : world := ab_imported ab_w (nw_run ab_env ab_V ex_dates (six_opts false) <$> ab_ss).
Definition ab_w2 : world := ab_ran ab_w1 pi_runs.
Lemma ab_imports : imports ab_env ab_w (nw_run ab_env ab_V ex_dates (six_opts false) <$> ab_ss) ab_tss ab_w1.
Proof. apply ab_imports_check. vm_compute. reflexivity. Qed.
Lemma ab_rulings : rulings ab_env rx_X ab_F (s2l "/r") ab_w1 pi_runs ab_w2.
Proof.
  apply ab_rulings_check; [|vm_compute; reflexivity].
  apply Forall_cons. split; [exact default_order_ok|]. apply Forall_cons. split; [exact reverse_order_ok|done].
Qed.
Lemma ab_file s text w : hash_order_ok (sf_order s) → NoDup (sf_days s) → w_files ab_w !! sf_csv s = Some text → sf_days s = w →
  ce_nationwide ab_V text = Some (six_head ++ window ab_rows w) →
  forallb (λ r, forallb field_okb r) (six_head ++ window ab_rows w) = true →
  rmapM (λ r, rmap Six (de_six ex_dates r)) (window ab_rows w) = Ok (window ab_days w) →
  nw_file ab_V ex_dates (s2l "Current") ab_days ab_w s.
Proof.
  intros Hho Hnd Ht <- Hc Hf Hr. split; [done|]. split; [done|]. exists text, (six_head ++ window ab_rows (sf_days s)).
  split; [done|]. split; [done|]. split; [by apply fields_ok_check|]. by apply ab_reads.
Qed.
Lemma ab_files : Forall (nw_file ab_V ex_dates (s2l "Current") ab_days ab_w) ab_ss.
Proof.
  apply Forall_cons. split; [|apply Forall_singleton].
  - eapply (ab_file _ (s2l "csv1")); [exact default_order_ok|by_compute|vm_compute; reflexivity|reflexivity|vm_compute; reflexivity..].
  - eapply (ab_file _ (s2l "csv2")); [exact reverse_order_ok|by_compute|vm_compute; reflexivity|reflexivity|vm_compute; reflexivity..].
Qed.
Lemma ab_back J : e_parse ab_env (e_print ab_env (into_ledger default_order J)) = Some (into_ledger default_order J) →
  Forall comments_writable_b J → Forall (λ tp, source_tag tp = None) J → reads_back ab_env J.
Proof.
  intros H1 H2 H3. split.
  - intros ho Hho. by rewrite (into_ledger_order ho default_order _ Hho default_order_ok).
  - intros tp Htp. split; [by apply (writable_compute J)|]. rewrite Forall_forall in H3. by apply H3.
Qed.
Lemma ab_reads_back : ∀ ts J, ts ∈ ab_tss → ruled rx_X ab_loaded_T (as_merged ts) J → reads_back ab_env J.
Proof.
  intros ts J Hts HJ. unfold ab_tss in Hts. apply elem_of_cons in Hts as [->|Hts%elem_of_list_singleton].
  - rewrite (ab_ruled_is (ab_import [0; 1]) J); [|vm_compute; reflexivity|exact HJ]. apply ab_back; [vm_compute; reflexivity|by_compute|by_compute].
  - subst ts. rewrite (ab_ruled_is (ab_import [2; 1]) J); [|vm_compute; reflexivity|exact HJ]. apply ab_back; [vm_compute; reflexivity|by_compute|by_compute].
Qed.
Lemma ab_prints : Forall (prints_back ab_env) ab_tss.
Proof. repeat (apply Forall_cons; split; [vm_compute; reflexivity|]); done. Qed.

(** PayPal: four payments at one time, with two currencies. *)
Definition ab_zero (c : commodity) : Q := 0.
Lemma ab_pp_adds_up : adds_up ab_zero (pp_entry <$> (stable_sort (by_key (λ g : instant * list pp_row, test_tz g.1)) (window pd_groups [0]) ≫= snd)).
Proof. apply adds_up_check. vm_compute. reflexivity. Qed.
(** A PDF statement that states one balance. *)
Definition ab_pdf_start (c : commodity) : Q := if decide (c = GBP) then 8670 # 100 else 0.
Definition ab_pdf_entries : list bank_entry :=
  let en neg n b := BankEntry (Amount (Dec neg 2 n) GBP) ((λ b, Amount (Dec false 2 b) GBP) <$> b) in
  [en true 250%N None; en false 700%N None; en true 120%N (Some 9000%N); en true 250%N None; en true 250%N None].
Lemma ab_pdf_adds_up : adds_up ab_pdf_start ab_pdf_entries.
Proof. apply adds_up_check. vm_compute. reflexivity. Qed.
Lemma ab_pdf_says : Forall2 (pdf_entry od_env) (stable_sort (by_key group_date) (window od_parts [0; 1; 2])) ab_pdf_entries.
Proof.
  assert (stable_sort (by_key group_date) (window od_parts [0; 1; 2]) = window od_parts [0; 1; 2]) as -> by (vm_compute; reflexivity).
  assert (∀ g d neg n s (bal : option (N * str)), tl_date g.1 = Some d → filter effective_line g.2 = [] →
    pe_decimal od_env (filter (λ c, c ≠ 44%N) s) = Some (Dec false 2 n) →
    (if neg : bool then tl_receipt g.1 = None ∧ tl_payment g.1 = Some s else tl_receipt g.1 = Some s ∧ tl_payment g.1 = None) →
    match bal with
    | None => omap tl_balance (group_lines g) = []
    | Some (b, s) => omap tl_balance (group_lines g) = [s] ∧ pe_decimal od_env (filter (λ c, c ≠ 44%N) s) = Some (Dec false 2 b)
    end →
    pdf_entry od_env g (BankEntry (Amount (Dec neg 2 n) GBP) ((λ b, Amount (Dec false 2 b.1) GBP) <$> bal))) as one.
  { intros g d neg n s bal Hd He Hs Hn Hb. exists d, [], (match bal with None => [] | Some (b, _) => [Amount (Dec false 2 b) GBP] end).
    split; [|by destruct bal as [[b sb]|]]. split; [done| |rewrite He; constructor|].
    - exists s, (Amount (Dec false 2 n) GBP). split; [by split|]. split; [done|]. destruct neg; [right|left]; destruct Hn; done.
    - destruct bal as [[b sb]|]; [destruct Hb as [-> Hb]|rewrite Hb; constructor]. repeat constructor; done. }
  unfold ab_pdf_entries. cbn [fmap option_fmap option_map].
  repeat apply List.Forall2_cons; [..|constructor].
  - eapply (one _ _ true 250%N (s2l "2.50") None); [vm_compute; reflexivity..|split; reflexivity|reflexivity].
  - eapply (one _ _ false 700%N (s2l "7.00") None); [vm_compute; reflexivity..|split; reflexivity|vm_compute; reflexivity].
  - eapply (one _ _ true 120%N (s2l "1.20") (Some (9000%N, s2l "90.00"))); [vm_compute; reflexivity..|split; reflexivity|split; vm_compute; reflexivity].
  - eapply (one _ _ true 250%N (s2l "2.50") None); [vm_compute; reflexivity..|split; reflexivity|reflexivity].
  - eapply (one _ _ true 250%N (s2l "2.50") None); [vm_compute; reflexivity..|split; reflexivity|reflexivity].
Qed.

(** The start that a balance needs. *)
Definition needed (A : str) (ps : list posting_internal) (i : nat) : option (commodity * Q) :=
  p ← ps !! i; if str_eqb (p_account (pi_raw p)) A then
    match p_balance (pi_raw p) with
    | Some (BalAmount a) => Some (a_commodity a, (dec_value (a_quantity a) - posts_value (a_commodity a) (on_account A (take (S i) ps)))%Q)
    | _ => None end else None.
Lemma needed_start A start ps i c q : assertions_hold A start ps → needed A ps i = Some (c, q) → (start c == q)%Q.
Proof.
  intros H. unfold needed. destruct (ps !! i) as [p|] eqn:Hi; [|done]. cbn [mbind option_bind].
  destruct (str_eqb (p_account (pi_raw p)) A) eqn:EA; [|done]. apply bool_decide_eq_true in EA.
  destruct (p_balance (pi_raw p)) as [[|a]|] eqn:Eb; try done. intros [= <- <-].
  specialize (H (take i ps) p (drop (S i) ps) (BalAmount a) ltac:(by rewrite take_drop_middle) EA Eb). unfold assertion_holds in H.
  rewrite (take_S_r _ _ _ Hi), H. ring.
Qed.
Lemma no_start A ps i k c q q' : needed A ps i = Some (c, q) → needed A ps k = Some (c, q') → Qeq_bool q q' = false →
  ∀ start, ¬ assertions_hold A start ps.
Proof.
  intros Hi Hk Hne start H. pose proof (needed_start _ _ _ _ _ _ H Hi) as E1. pose proof (needed_start _ _ _ _ _ _ H Hk) as E2.
  assert (q == q')%Q as E by (by rewrite <- E1, <- E2). apply Qeq_bool_iff in E. by rewrite E in Hne.
Qed.
Lemma ab_pp_order : ∀ start, ¬ assertions_hold (s2l "assets:unknown") start (all_posts (stable_sort (by_key tp_date) (as_merged (pd_import [0; 1])))).
Proof.
  destruct (needed (s2l "assets:unknown") (all_posts (stable_sort (by_key tp_date) (as_merged (pd_import [0; 1])))) 0) as [[c q]|] eqn:E1;
    [|vm_compute in E1; discriminate E1].
  destruct (needed (s2l "assets:unknown") (all_posts (stable_sort (by_key tp_date) (as_merged (pd_import [0; 1])))) 12) as [[c' q']|] eqn:E2;
    [|vm_compute in E2; discriminate E2].
  assert (c = c' ∧ Qeq_bool q q' = false) as [-> E3].
  { vm_compute in E1, E2. injection E1 as <- <-. injection E2 as <- <-. split; vm_compute; reflexivity. }
  exact (no_start _ _ _ _ _ _ _ E1 E2 E3).
Qed.

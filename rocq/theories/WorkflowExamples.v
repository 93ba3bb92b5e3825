(** Literal journals and statements for the examples beside the theorems about
    repeated runs. *)
From Verif Require Import MergeClaims.
From Verif Require Import Base Types SpecBase BaseProofs CommentModel MergeModel Sha1 FingerprintModel NwCsvModel TzModel PaypalModel
  CommentClaims FingerprintClaims ImportClaims ImportProofs ImportRows ImportLaws ImportPaypal TestsImport ImportExamples.
From Verif Require Import MergeProofs MergeLemmas MergeReplay MergeLaws5 MergeExamples CommentExamples RulesModel RulesClaims RulesExamples
  EditClaims MergeEdit RulesEdit WindowClaims MergeDays StatementClaims ImportDays PaypalDays.
From Coq Require Import Lia.
Local Open Scope nat_scope.

(** Checks of hypotheses on literals. *)
Definition fps_of (p : posting_internal) : list str := filter (λ t, is_fingerprint t = true) (elements (tags (pi_comment p))).
Lemma fps_of_spec p f : f ∈ fps_of p ↔ has_fp p f.
Proof. unfold fps_of, has_fp, has_tag. by rewrite elem_of_list_filter, elem_of_elements, is_fingerprint_spec. Qed.
Lemma distinct_check ps : NoDup (ps ≫= fps_of) → fps_distinct ps.
Proof.
  intros Hnd i j p q Hi Hj (f & Hp%fps_of_spec & Hq%fps_of_spec).
  revert i j Hi Hj. induction ps as [|x ps IH]; intros i j Hi Hj; [done|].
  rewrite bind_cons in Hnd. apply NoDup_app in Hnd as (Hx & Hd & Hnd).
  assert (∀ k y, ps !! k = Some y → f ∈ fps_of y → f ∈ ps ≫= fps_of) as Hin.
  { intros k y Hk Hy. apply elem_of_list_bind. exists y. split; [done|by eapply elem_of_list_lookup_2]. }
  destruct i as [|i], j as [|j]; [done|..].
  - injection Hi as ->. destruct (Hd f); [done|by eapply Hin].
  - injection Hj as ->. destruct (Hd f); [done|by eapply Hin].
  - f_equal. by apply IH.
Qed.
Definition mergeableb (p : posting_internal) : bool :=
  existsb is_fingerprint (elements (tags (pi_comment p))) && forallb (λ t, negb (is_candidate t)) (elements (tags (pi_comment p))).
Lemma mergeable_check p : mergeableb p = true → mergeable p.
Proof.
  intros [H1 H2]%andb_true_iff. split.
  - apply existsb_exists in H1 as (f & Hf%elem_of_list_In & E). exists f. split; [by apply is_fingerprint_spec|unfold has_tag; by apply elem_of_elements].
  - intros t Ht Hc. rewrite forallb_forall in H2. apply is_candidate_spec in Hc.
    specialize (H2 t ltac:(by apply elem_of_list_In, elem_of_elements)). by rewrite Hc in H2.
Qed.
Lemma journal_check J : forallb mergeableb (all_posts J) = true → NoDup (all_posts J ≫= fps_of) →
  forallb (λ tp, match tp_posts tp with [] => false | _ => true end) J = true → journal_ok J.
Proof.
  intros H1 H2 H3. rewrite forallb_forall in H1, H3. split_and!.
  - intros p Hp. by apply mergeable_check, H1, elem_of_list_In.
  - by apply distinct_check.
  - intros tp Htp E. specialize (H3 tp ltac:(by apply elem_of_list_In)). by rewrite E in H3.
Qed.
Fixpoint flag_names (a : action) : list str :=
  match a with AAddPostFlag t | ARemovePostFlag t => [t] | AAll l => l ≫= flag_names | _ => [] end.
Lemma flag_names_spec t a b : a = AAddPostFlag t ∨ a = ARemovePostFlag t → within a b → t ∈ flag_names b.
Proof.
  intros Ha. induction 1 as [|b l Hb _ IH]; [destruct Ha as [-> | ->]; by left|]. cbn [flag_names]. apply elem_of_list_bind. eauto.
Qed.
Lemma leaves_check T :
  forallb (λ nrs, forallb (λ r, forallb (λ t, negb (is_fingerprint t) && negb (is_candidate t)) (flag_names (r_action r))) nrs.2) (map_to_list T) = true →
  leaves_fingerprints T.
Proof.
  intros HT t Ht.
  assert (∀ a, a = AAddPostFlag t ∨ a = ARemovePostFlag t → ¬ has_action T a) as H; [|split; apply H; auto].
  intros a Ha (n & rs & r & En & Hr & Hw). rewrite forallb_forall in HT.
  specialize (HT (n, rs) ltac:(by apply elem_of_list_In, elem_of_map_to_list)). cbn [snd] in HT. rewrite forallb_forall in HT.
  specialize (HT r ltac:(by apply elem_of_list_In)). rewrite forallb_forall in HT.
  specialize (HT t ltac:(by eapply elem_of_list_In, flag_names_spec)). apply andb_true_iff in HT as [Hf Hc].
  destruct Ht as [Ht|Ht]; [apply is_fingerprint_spec in Ht; by rewrite Ht in Hf|apply is_candidate_spec in Ht; by rewrite Ht in Hc].
Qed.

(** Two runs, then editing: the transactions of the first day are moved to a later
    one, descriptions and accounts changed, a flag tag added, a transaction added. *)
Definition wf_runs : list (hash_order * list transaction_postings) := [(default_order, ex_s0); (default_order, ex_s1)].
Definition wf_m : merger := (merge default_order ex_m0 ex_s1).1.
Definition wf_out : list transaction_postings := rok (build default_order wf_m) [].
Definition wf_edit (tp : transaction_postings) : transaction_postings :=
  ex_tp (if decide (tp_date tp = day1) then (2020%Z, 1%N, 3%N) else tp_date tp) (s2l "mine")
    ((λ p, PI (Posting (s2l "mine:account") Real (p_amount (pi_raw p)) None None None)
       (Comment [] ({[ s2l "checked" ]} ∪ tags (pi_comment p)) ∅)) <$> tp_posts tp).
Definition wf_J : list transaction_postings := (wf_edit <$> wf_out) ++ [ex_tp day1 (s2l "cash") [ex_post food 100 [s2l "fp-hand"]]].
Lemma wf_clean : clean_run merger_new wf_runs wf_m.
Proof.
  econstructor; [exact default_order_ok|apply merge_eq; by_compute|]. change (merge _ _ ex_s0).1 with ex_m0.
  econstructor; [exact default_order_ok|apply merge_eq; by_compute|]. constructor.
Qed.
Lemma wf_built : build default_order wf_m = Ok wf_out ∧ length wf_out = 4.
Proof. split; by_compute. Qed.
Lemma wf_edited : edited wf_out wf_J.
Proof.
  exists (λ a b, (a, b)). split_and!; cbn [fst snd]; [|done|by intros ? ? ? ? ? ? ? ? _ _ _ _ [= -> ->]].
  intros a b tp p Ha Hb. exists (wf_edit tp). eexists. split_and!.
  - unfold wf_J. apply lookup_app_l_Some. rewrite list_lookup_fmap, Ha. done.
  - cbn [wf_edit tp_posts ex_tp]. rewrite list_lookup_fmap, Hb. reflexivity.
  - intros f [Hf Ht]. split; [done|]. unfold has_tag in *. cbn [pi_comment tags]. apply elem_of_union. by right.
Qed.
Lemma wf_J_ok : journal_ok wf_J.
Proof. apply journal_check; [vm_compute; reflexivity|by_compute|vm_compute; reflexivity]. Qed.
Lemma wf_moved : stable_sort (by_key tp_date) wf_J ≠ wf_J.
Proof. intros H%(f_equal (map tp_date)). revert H. vm_compute. discriminate. Qed.
(** A rule table applied to it. *)
Definition wf_ruled : list transaction_postings :=
  match update_transactions rx_X default_order rx_T 2 wf_out with Some (Ok l) => l | _ => [] end.
Lemma wf_rules : update_transactions rx_X default_order rx_T 2 wf_out = Some (Ok wf_ruled) ∧ map rx_shape wf_ruled ≠ map rx_shape wf_out.
Proof. split; [vm_compute; reflexivity|]. vm_compute. discriminate. Qed.
Lemma wf_leaves : leaves_fingerprints rx_T.
Proof. apply leaves_check. vm_compute. reflexivity. Qed.

(** Overlapping statements: three days, in windows. *)
Definition wd_rows : list (list csv_record) :=
  [ [ex_row "01 Sep 2021" "COFFEE" "2.50"; ex_row "01 Sep 2021" "COFFEE" "2.50"]; [ex_row "02 Sep 2021" "TEA" "1.20"];
    [ex_row "03 Sep 2021" "COFFEE" "2.50"] ].
Definition wd_days : list (list nw_record) :=
  [ [ex_record 1 "COFFEE" 250; ex_record 1 "COFFEE" 250]; [ex_record 2 "TEA" 120]; [ex_record 3 "COFFEE" 250] ].
Definition wd_imported (w : list nat) : list transaction :=
  snd (rok (nw_csv_import ex_dates reverse_order ex_opts (ex_head ++ window wd_rows w)) ([], [])).
(** The three that are used, computed once. *)
Definition wd_import_01 : list transaction := Eval vm_compute in wd_imported [0; 1].
Definition wd_import_21 : list transaction := Eval vm_compute in wd_imported [2; 1].
Definition wd_import_012 : list transaction := Eval vm_compute in wd_imported [0; 1; 2].
Definition wd_import (w : list nat) : list transaction :=
  match w with [0; 1] => wd_import_01 | [2; 1] => wd_import_21 | [0; 1; 2] => wd_import_012 | _ => wd_imported w end.
Lemma wd_reads w rs : rmapM (λ r, rmap Five (de_five ex_dates r)) (window wd_rows w) = Ok rs → rs = window wd_days w →
  statement_reads ex_dates (ex_head ++ window wd_rows w) (s2l "Current") (window wd_days w).
Proof. intros H <-. by apply ex_reads. Qed.
Lemma wd_statement w : NoDup w → forallb (λ r, forallb field_okb r) (ex_head ++ window wd_rows w) = true →
  rmapM (λ r, rmap Five (de_five ex_dates r)) (window wd_rows w) = Ok (window wd_days w) →
  nw_csv_import ex_dates reverse_order ex_opts (ex_head ++ window wd_rows w) = Ok (s2l "cur", wd_import w) →
  nw_statement ex_dates ex_opts (s2l "Current") wd_days w (wd_import w).
Proof.
  intros Hnd Hf Hr Hi. split; [done|]. exists reverse_order, (ex_head ++ window wd_rows w), (s2l "cur").
  split_and!; [exact reverse_order_ok|by apply fields_ok_check|by apply ex_reads|done].
Qed.
Lemma wd_days_ok : days rec_date wd_days.
Proof.
  assert (∀ i D a, wd_days !! i = Some D → a ∈ D → rec_date a = (2021%Z, 9%N, N.of_nat (S i))) as H.
  { intros i D a Hi Ha. destruct i as [|[|[|i]]]; [..|done]; injection Hi as <-;
      repeat (apply elem_of_cons in Ha as [->|Ha]; [reflexivity|]); by apply elem_of_nil in Ha. }
  intros i k D E a b HD HE Ha Hb. rewrite (H _ _ _ HD Ha), (H _ _ _ HE Hb). split; [|by intros ->]. intros [= E1]. lia.
Qed.
(** Row numbers within a statement whose records are [rs]: no two messages collide. *)
Definition row_messages (rs : list nw_record) : list (list N) :=
  mjoin (imap (λ i r, match r with Five r => (five_message r (Z.of_nat (day_number (rec_date <$> rs) i))) <$> [Self; Peer] | _ => [] end) rs).
Lemma statement_check rs : forallb (λ r, match r with Five _ => true | _ => false end) rs = true →
  NoDup (sha1 <$> row_messages rs) → ¬ statement_collides rs.
Proof.
  intros Hf Hnd. rewrite forallb_forall in Hf.
  assert (∀ i r m, rs !! i = Some r → row_message r (day_number (rec_date <$> rs) i) m → m ∈ row_messages rs) as Hall.
  { intros i r m Hi Hm. specialize (Hf r ltac:(by eapply elem_of_list_In, elem_of_list_lookup_2)). destruct r as [r|]; [|done].
    destruct Hm as (s & ->). apply elem_of_list_join. eexists. split; [|apply elem_of_lookup_imap; exists i, (Five r); split; [reflexivity|done]].
    apply elem_of_list_fmap. exists s. split; [done|]. destruct s; [left|right; left]. }
  intros (i & j & r & r' & m & m' & Hi & Hj & Hm & Hm' & Hne & E).
  apply (Hall _ _ _ Hi) in Hm as (k & Hk)%elem_of_list_lookup. apply (Hall _ _ _ Hj) in Hm' as (k' & Hk')%elem_of_list_lookup.
  assert (k = k') as ->.
  { eapply (NoDup_lookup _ k k' (sha1 m)); [exact Hnd|..]; rewrite list_lookup_fmap; [by rewrite Hk|by rewrite Hk', E]. }
  rewrite Hk in Hk'. by injection Hk'.
Qed.
(** PayPal: two days. *)
Definition pd_groups : list (list (instant * list pp_row)) := [[(pp_ex_t1, take 4 pp_ex_rows)]; [(pp_ex_t2, drop 4 pp_ex_rows)]].
Lemma covers_check ws seen : NoDup seen → Forall (λ w, Forall (λ k, k ∈ seen) w) ws → Forall (λ k, Exists (λ w, k ∈ w) ws) seen → covers ws seen.
Proof.
  intros Hnd H1 H2. split; [done|]. intros k. split.
  - intros Hk. pose proof (proj1 (Forall_forall _ _) H2 k Hk) as H. cbv beta in H. by apply Exists_exists in H.
  - intros (w & Hw & Hk). pose proof (proj1 (Forall_forall _ _) H1 w Hw) as H. exact (proj1 (Forall_forall _ _) H k Hk).
Qed.
Lemma wd_01 : nw_statement ex_dates ex_opts (s2l "Current") wd_days [0; 1] (wd_import [0; 1]).
Proof. apply wd_statement; [by_compute|vm_compute; reflexivity|vm_compute; reflexivity|vm_compute; reflexivity]. Qed.
Lemma wd_12 : nw_statement ex_dates ex_opts (s2l "Current") wd_days [2; 1] (wd_import [2; 1]).
Proof. apply wd_statement; [by_compute|vm_compute; reflexivity|vm_compute; reflexivity|vm_compute; reflexivity]. Qed.
Lemma wd_012 : nw_statement ex_dates ex_opts (s2l "Current") wd_days [0; 1; 2] (wd_import [0; 1; 2]).
Proof. apply wd_statement; [by_compute|vm_compute; reflexivity|vm_compute; reflexivity|vm_compute; reflexivity]. Qed.
Lemma wd_covers : covers [[0; 1]; [2; 1]] [0; 1; 2].
Proof. apply covers_check; by_compute. Qed.
Lemma wd_no_collision : ¬ statement_collides (window wd_days [0; 1; 2]).
Proof. apply statement_check; [vm_compute; reflexivity|by_compute]. Qed.

Lemma pd_statement w : NoDup w → (∃ r, r = window pd_groups w ≫= snd ∧ forallb pp_row_okb r = true ∧ (N.of_nat (length r) <? 2 ^ 64)%N = true) →
  runs ex_db (window pd_groups w ≫= snd) (window pd_groups w) → ∀ ts,
  pp_import default_order true test_tz ex_db (s2l "paypal") (window pd_groups w ≫= snd) = Ok ts →
  pp_statement test_tz ex_db (s2l "paypal") pd_groups w ts.
Proof.
  intros Hnd (r & -> & H1 & H2) Hr ts Hi. split; [done|]. exists default_order, (window pd_groups w ≫= snd).
  split_and!; [exact default_order_ok|by apply rows_ok_check|done|done].
Qed.
Lemma runs_check db gs : forallb (λ tg, match tg.2 with [] => false | _ => true end && forallb (λ r, bool_decide (instant_of db r = Some tg.1)) tg.2) gs = true →
  NoDup gs.*1 → runs db (gs ≫= snd) gs.
Proof.
  intros H Hnd. rewrite forallb_forall in H.
  assert (∀ t g, (t, g) ∈ gs → g ≠ [] ∧ forallb (λ r, bool_decide (instant_of db r = Some t)) g = true) as Hg.
  { intros t g Hin. specialize (H (t, g) ltac:(by apply elem_of_list_In)). cbn [fst snd] in H. apply andb_true_iff in H as [H1 H2].
    split; [by intros ->|done]. }
  constructor.
  - clear. induction gs as [|g gs IH]; [done|]. rewrite bind_cons, <- IH. done.
  - intros t g Hin. by destruct (Hg t g Hin).
  - intros t g r Hin. apply instant_check. by destruct (Hg t g Hin).
  - intros i t g t' g' Hi Hi' ->. assert (i = S i); [|lia].
    eapply (NoDup_lookup _ i (S i) t' Hnd); rewrite list_lookup_fmap; [by rewrite Hi|by rewrite Hi'].
Qed.
Definition pd_imported (w : list nat) : list transaction :=
  rok (pp_import default_order true test_tz ex_db (s2l "paypal") (window pd_groups w ≫= snd)) [].
(** Computed once. *)
Definition pd_import_0 : list transaction := Eval vm_compute in pd_imported [0].
Definition pd_import_10 : list transaction := Eval vm_compute in pd_imported [1; 0].
Definition pd_import_01 : list transaction := Eval vm_compute in pd_imported [0; 1].
Definition pd_import (w : list nat) : list transaction :=
  match w with [0] => pd_import_0 | [1; 0] => pd_import_10 | [0; 1] => pd_import_01 | _ => pd_imported w end.
Lemma pd_one w : w ∈ [[0]; [1; 0]; [0; 1]] → pp_statement test_tz ex_db (s2l "paypal") pd_groups w (pd_import w).
Proof.
  intros Hw. repeat (apply elem_of_cons in Hw as [->|Hw]; [apply pd_statement;
    [by_compute|eexists; split_and!; [reflexivity|vm_compute; reflexivity|vm_compute; reflexivity]
    |apply runs_check; [vm_compute; reflexivity|by_compute]|vm_compute; reflexivity]|]).
  by apply elem_of_nil in Hw.
Qed.
Lemma pd_days : days (λ g, test_tz g.1) pd_groups.
Proof.
  assert (∀ i D a, pd_groups !! i = Some D → a ∈ D → test_tz a.1 = (2019%Z, 1%N, N.of_nat (S i))) as H.
  { intros i D a Hi Ha. destruct i as [|[|i]]; [..|done]; injection Hi as <-; apply elem_of_list_singleton in Ha as ->; vm_compute; reflexivity. }
  intros i k D E a b HD HE Ha Hb. rewrite (H _ _ _ HD Ha), (H _ _ _ HE Hb). split; [|by intros ->]. intros [= E1]. lia.
Qed.
Lemma pd_no_collision : NoDup (window pd_groups [0; 1]).*1 ∧ ¬ groups_collide (window pd_groups [0; 1]).
Proof. split; [by_compute|]. apply no_collision_check. by_compute. Qed.

(** C89 does not hold: a statement that begins within a day numbers the payments of
    that day from 0 again.  The second of two equal payments gets the fingerprint of
    the first, and is lost; and if the first statement ended between the two, merging
    the whole day fails. *)
Definition cut_import (rows : list csv_record) : list transaction :=
  snd (rok (nw_csv_import ex_dates default_order ex_opts (ex_head ++ rows)) ([], [])).
Lemma cut_check rows rs : forallb (λ r, forallb field_okb r) (ex_head ++ rows) = true →
  rmapM (λ r, rmap Five (de_five ex_dates r)) rows = Ok rs →
  nw_csv_import ex_dates default_order ex_opts (ex_head ++ rows) = Ok (s2l "cur", cut_import rows) →
  row_statement ex_dates ex_opts (s2l "Current") rs (cut_import rows).
Proof.
  intros H1 H2 H3. exists default_order, (ex_head ++ rows), (s2l "cur").
  split_and!; [exact default_order_ok|by apply fields_ok_check|by apply ex_reads|done].
Qed.
Lemma merges_check ho m s e : hash_order_ok ho → match (merge ho m s).2 with Err x => bool_decide (x = e) | _ => false end = true →
  merge ho m s = ((merge ho m s).1, Err e).
Proof.
  intros _. destruct (merge ho m s) as [m' [|x|]]; try done. cbn [fst snd]. intros H%bool_decide_eq_true. by subst x.
Qed.
Lemma c89_refuted : ∃ pd o name rs ta tb t ho,
  parser_ok pd ∧ contiguous (rec_date <$> rs) ∧ ¬ statement_collides rs ∧ hash_order_ok ho ∧ length rs = 3 ∧
  row_statement pd o name (take 1 rs) ta ∧ row_statement pd o name (drop 1 rs) tb ∧ row_statement pd o name rs t ∧
  (∃ m out, clean_run merger_new [(ho, as_merged ta); (ho, as_merged tb)] m ∧ build ho m = Ok out ∧ length out = 2) ∧
  ∃ m m' e, merge ho merger_new (as_merged ta) = (m, Ok []) ∧ merge ho m (as_merged t) = (m', Err e).
Proof.
  exists ex_dates, ex_opts, (s2l "Current"), ex_records, (cut_import (take 1 ex_rows)), (cut_import (drop 1 ex_rows)), (cut_import ex_rows), default_order.
  split_and!; [exact ex_dates_ok|exact ex_contiguous|exact ex_no_collision|exact default_order_ok|done| | | | |].
  - apply cut_check; vm_compute; reflexivity.
  - apply cut_check; vm_compute; reflexivity.
  - apply cut_check; vm_compute; reflexivity.
  - eexists _, _. split_and!.
    + econstructor; [exact default_order_ok|apply merge_eq; by_compute|]. econstructor; [exact default_order_ok|apply merge_eq; by_compute|]. constructor.
    + vm_compute. reflexivity.
    + vm_compute. reflexivity.
  - eexists _, _, ESameDestination. split; [apply merge_eq; by_compute|]. apply merges_check; [exact default_order_ok|]. vm_compute. reflexivity.
Qed.
(** Two days merged twice. *)
Definition wp_parts : list (list transaction_postings) := [[ex_t1; ex_t2]; [ex_t3]].
Lemma wp_ok : journal_ok (concat wp_parts).
Proof. apply journal_check; [vm_compute; reflexivity|by_compute|vm_compute; reflexivity]. Qed.
Lemma wp_days : days tp_date wp_parts.
Proof.
  assert (∀ i D a, wp_parts !! i = Some D → a ∈ D → tp_date a = (2020%Z, 1%N, N.of_nat (S i))) as H.
  { intros i D a Hi Ha. destruct i as [|[|i]]; [..|done]; injection Hi as <-;
      repeat (apply elem_of_cons in Ha as [->|Ha]; [reflexivity|]); by apply elem_of_nil in Ha. }
  intros i k D E a b HD HE Ha Hb. rewrite (H _ _ _ HD Ha), (H _ _ _ HE Hb). split; [|by intros ->]. intros [= E1]. lia.
Qed.
Lemma clean_fun m runs m1 m2 : clean_run m runs m1 → clean_run m runs m2 → m1 = m2.
Proof.
  intros H. revert m2. induction H as [m|m ho s runs m1 m2 _ E _ IH]; intros m3 H3; inversion H3; subst; [done|].
  apply IH. match goal with H : merge _ _ _ = (?x, _) |- _ => rewrite E in H; injection H as <- end. done.
Qed.
Lemma wp_merged m : clean_run merger_new [(default_order, [ex_t3]); (reverse_order, [ex_t1; ex_t2; ex_t3])] m →
  build default_order m = Ok [ex_t1; ex_t2; ex_t3].
Proof.
  intros Hm. destruct (days_merge wp_parts [(default_order, [1]); (reverse_order, [0; 1])] wp_ok wp_days) as (m' & Hrun & Hb).
  { apply Forall_cons. split; [split; [exact default_order_ok|by_compute]|]. apply Forall_cons. split; [split; [exact reverse_order_ok|by_compute]|]. by apply Forall_nil. }
  rewrite (clean_fun _ _ _ _ Hm Hrun). rewrite (Hb [0; 1] default_order); [vm_compute; reflexivity| |exact default_order_ok].
  apply covers_check; by_compute.
Qed.

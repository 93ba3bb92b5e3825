(** Proofs for C149: what the option for legacy fingerprints does. *)
From Verif Require Import MergeClaims.
From Verif Require Import Base Types SpecBase BaseProofs StrProofs CommentModel Sha1 FingerprintModel NwCsvModel TzModel
  PaypalModel CommentClaims CommentProofs CommentLaws FingerprintClaims FingerprintProofs FingerprintLaws
  ImportClaims ImportProofs ImportRows ImportLaws ImportPaypal LegacyClaims.
Local Open Scope nat_scope.

(** ** A comment with one more tag, written and read *)
Definition plus (t : str) (c : comment) : comment := set_tags (λ s, {[t]} ∪ s) c.
Lemma plus_push t x c : push_text x (plus t c) = plus t (push_text x c).
Proof. unfold push_text. by destruct (trim x). Qed.
Lemma plus_flags (t : str) (fs : list str) (s : gset str) : foldl (λ t f, {[f]} ∪ t) ({[t]} ∪ s) fs = {[t]} ∪ foldl (λ t f, {[f]} ∪ t) s fs.
Proof. rewrite !add_flags_spec. set_solver. Qed.
Lemma plus_line t l c : parse_line l (plus t c) = plus t (parse_line l c).
Proof.
  unfold parse_line. destruct (value_tag_rx l) as [[k v]|]; [done|]. destruct (flag_scan _ _ _) as [gs tail].
  rewrite <- plus_push. f_equal. revert c. induction gs as [|[x g] gs IH]; intros c; [done|]. cbn [foldl].
  rewrite <- IH. f_equal. rewrite plus_push. unfold plus, set_tags. cbn [tags lines value_tags]. f_equal. apply plus_flags.
Qed.
Lemma plus_lines t ls c : parse_lines (plus t c) ls = plus t (parse_lines c ls).
Proof. revert c. induction ls as [|l ls IH]; intros c; [done|]. unfold parse_lines in *. cbn [foldl]. by rewrite plus_line, IH. Qed.
Definition fine (c : comment) : Prop := lines c = [] ∧ ∀ u, u ∈ tags c → tag_ok u.
Lemma fine_read ho c : hash_order_ok ho → fine c →
  from_opt_comment (into_opt_comment ho c) = parse_lines (Comment [] (tags c) ∅) (format_values ho (value_tags c) ≫= split_on NL).
Proof.
  intros Hho [H1 H2]. rewrite from_into, H1. cbn [format_lines]. rewrite bind_app, parse_lines_app. f_equal.
  rewrite format_tags_runs, bind_split_id.
  2:{ apply Forall_fmap, Forall_forall. intros r Hr. simpl. rewrite not_elem_of_cons. split; [done|].
    unfold group. intros (u & Hu & Hur)%elem_of_list_bind.
    apply elem_of_app in Hu as [Hu|Hu%elem_of_list_singleton]; [|done].
    assert (u ∈ tags c) as Hut%H2 by (apply (tag_runs_elem ho); eauto). by destruct Hut. }
  rewrite parse_tag_lines.
  2:{ apply Forall_forall. intros r Hr. split; [by eapply tag_runs_nonempty|]. apply Forall_forall. intros u Hu.
      assert (u ∈ tags c) as Hut%H2 by (apply (tag_runs_elem ho); eauto). by destruct Hut. }
  cbn [lines tags value_tags comment_new]. f_equal. apply set_eq. intros u. rewrite elem_of_union, elem_of_list_to_set, (tag_runs_elem ho (tags c) u Hho), elem_of_list_join.
  split; [intros [Hu%elem_of_empty|(r & H)]; [done|exists r; tauto]|]. intros (r & H). right. exists r. tauto.
Qed.
Lemma fine_more ho t c c' : hash_order_ok ho → fine c → tag_ok t → lines c' = lines c → value_tags c' = value_tags c → tags c' = {[t]} ∪ tags c →
  from_opt_comment (into_opt_comment ho c') = plus t (from_opt_comment (into_opt_comment ho c)).
Proof.
  intros Hho Hc Ht E1 E2 E3. rewrite (fine_read ho c Hho Hc), (fine_read ho c' Hho).
  - rewrite E2, E3, <- plus_lines. done.
  - destruct Hc as [H1 H2]. split; [congruence|]. rewrite E3. intros u [->%elem_of_singleton|Hu]%elem_of_union; auto.
Qed.
Lemma fine_new : fine comment_new.
Proof. split; [done|]. cbn. set_solver. Qed.
Lemma fine_tag t c : tag_ok t → fine c → fine (with_tag t c).
Proof. intros Ht [H1 H2]. split; [done|]. cbn. intros u [->%elem_of_singleton|Hu]%elem_of_union; auto. Qed.
Lemma fine_value k v c : fine c → fine (with_value_tag k v c).
Proof. done. Qed.
Lemma fine_opt_value k v c : fine c → fine (with_option_value_tag k v c).
Proof. by destruct v. Qed.
Lemma one_more_posting ho ns t a k am b st c c' : hash_order_ok ho → fine c → tag_ok t → old_form ns t → lines c' = lines c → value_tags c' = value_tags c →
  tags c' = {[t]} ∪ tags c → one_more ns (Posting a k am b st (into_opt_comment ho c)) (Posting a k am b st (into_opt_comment ho c')).
Proof.
  intros Hho Hc Ht Hf E1 E2 E3. split; [done|]. cbn [posting_internal_of pi_comment p_comment]. rewrite (fine_more ho t c c') by done.
  split; [done|]. split; [done|]. exists t. split; [done|]. intros u. cbn. set_solver.
Qed.

Lemma old_of alg v ns msg : fp_part ns → old_form ns (legacy_tag (fp_of alg v ns msg)).
Proof. intros Hn. eexists. split; [reflexivity|]. split; [done|apply into_base64_part]. Qed.

(** ** Nationwide *)
Lemma both_bind {A B} (P : A → A → Prop) (P' : B → B → Prop) r r' k k' : both P r r' → (∀ a a', P a a' → both P' (k a) (k' a')) →
  both P' (rbind r k) (rbind r' k').
Proof. intros H Hk. destruct r, r'; try done. cbn in *. by apply Hk. Qed.
Lemma both_refl {A} (P : A → A → Prop) (r : result A) : (∀ a, P a a) → both P r r.
Proof. destruct r; cbn; auto. Qed.
Lemma six_more ho r ns name i : hash_order_ok ho →
  both (λ x x', one_more ns x.1 x'.1 ∧ one_more ns x.2 x'.2) (six_form_postings ho r ns name i false) (six_form_postings ho r ns name i true).
Proof.
  intros Hho. unfold six_form_postings. destruct (self_amount_of _ _) as [a| |]; [|done..]. cbn [rbind].
  destruct (six_fingerprint_v1 r ns i) as [fp| |] eqn:Ef; [|done..]. cbn [rbind]. apply six_fp in Ef as [Hn ->].
  destruct (seq_value ns i) as [seq| |]; [|done..]. cbn [rbind].
  assert (∃ l, six_fingerprint_legacy r ns i (self_and_peer_account_amount a ASSETS_UNKNOWN) = Ok l) as [l El].
  { eexists. apply legacy_fp. split; [done|reflexivity]. }
  rewrite El. apply legacy_fp in El as [_ ->]. cbn [rbind both fst snd].
  pose proof (λ s f, row_fps_good true ns (Six r) a i s f Hn) as Hg. unfold row_fps in Hg.
  assert (∀ s, good_fp_tag (legacy_tag (fp_of [] 0 ns (legacy_message r i (pick s (self_and_peer_account_amount a ASSETS_UNKNOWN)))))) as Hl.
  { intros s. apply (Hg s). by left. }
  assert (∀ s, good_fp_tag (tag (fp_of (s2l "nwcsv6") 1 ns (six_message r i s)))) as H6.
  { intros s. apply (Hg s). right. by left. }
  split.
  - eapply one_more_posting; [done| |apply good_tag_ok, (Hl Self)|by apply old_of|done|done|done].
    apply fine_tag; [apply tag_self|]. apply fine_value, fine_tag; [apply good_tag_ok, (H6 Self)|]. do 3 apply fine_value.
    apply fine_tag; [apply tag_unknown|apply fine_new].
  - eapply one_more_posting; [done| |apply good_tag_ok, (Hl Peer)|by apply old_of|done|done|done].
    apply fine_tag; [apply tag_peer|]. apply fine_tag; [apply good_tag_ok, (H6 Peer)|]. do 3 apply fine_value.
    apply fine_tag; [apply tag_unknown|apply fine_new].
Qed.
Lemma six_rows_more pd ho ns name rows : hash_order_ok ho → ∀ prev n,
  both (Forall2 (trn_one_more ns)) (process_rows (λ r, rmap Six (de_six pd r)) ho false ns name prev n rows)
    (process_rows (λ r, rmap Six (de_six pd r)) ho true ns name prev n rows).
Proof.
  intros Hho. induction rows as [|row rows IH]; intros prev n; [constructor|]. cbn [process_rows].
  destruct (de_six pd row) as [r| |]; [|done..]. cbn [rmap rbind]. destruct (next_counter _ _ _) as [m| |]; [|done..]. cbn [rbind rec_form_postings].
  eapply both_bind; [by apply six_more|]. intros [p q] [p' q'] [H1 H2]. cbn [fst snd] in *.
  eapply both_bind; [apply IH|]. intros ts ts' Hts. cbn. constructor; [|done]. split; [done|]. cbn. (constructor; [done|constructor; [done|constructor]]).
Qed.
Lemma five_rows_same pd ho ns name rows : ∀ prev n,
  process_rows (λ r, rmap Five (de_five pd r)) ho true ns name prev n rows = process_rows (λ r, rmap Five (de_five pd r)) ho false ns name prev n rows.
Proof.
  induction rows as [|row rows IH]; intros prev n; [done|]. cbn [process_rows].
  destruct (de_five pd row) as [r| |]; [|done..]. cbn [rmap rbind]. destruct (next_counter _ _ _) as [m| |]; [|done..]. cbn [rbind rec_form_postings].
  destruct (five_form_postings ho r ns name m) as [ps| |]; [|done..]. cbn [rbind]. by rewrite IH.
Qed.
Lemma c149_five pd ho f records : records !! 3 = Some FIVE_HEADERS → nw_csv_import pd ho (NwOpts true f) records = nw_csv_import pd ho (NwOpts false f) records.
Proof.
  destruct records as [|a [|b [|c [|h rows]]]]; try done. intros [= ->]. unfold nw_csv_import, process_file. cbn [nw_legacy nw_fp_ns].
  rewrite bool_decide_true by done. destruct (account_name_record a) as [name| |]; [|done..]. cbn [rbind].
  destruct (quantity_record _ b) as [?| |]; [|done..]. cbn [rbind]. destruct (quantity_record _ c) as [?| |]; [|done..]. cbn [rbind].
  destruct (make_namespace f name) as [ns| |]; [|done..]. cbn [rbind]. by rewrite five_rows_same.
Qed.
Lemma c149_nationwide pd ho f records : hash_order_ok ho → records !! 3 ≠ Some FIVE_HEADERS →
  both (λ x x', x'.1 = x.1 ∧ Forall2 (trn_one_more x.1) x.2 x'.2) (nw_csv_import pd ho (NwOpts false f) records) (nw_csv_import pd ho (NwOpts true f) records).
Proof.
  intros Hho H. destruct records as [|a [|b [|c rest]]]; [done..|]. unfold nw_csv_import. cbn [nw_legacy nw_fp_ns].
  destruct (account_name_record a) as [name| |]; [|done..]. cbn [rbind].
  destruct (quantity_record _ b) as [?| |]; [|done..]. cbn [rbind]. destruct (quantity_record _ c) as [?| |]; [|done..]. cbn [rbind].
  destruct (make_namespace f name) as [ns| |]; [|done..]. cbn [rbind].
  eapply (both_bind (Forall2 (trn_one_more ns))); [|by intros ts ts' Hts].
  unfold process_file. destruct rest as [|h rows]; [done|]. rewrite bool_decide_false by (intros ->; by apply H).
  case_bool_decide; [|done]. by apply six_rows_more.
Qed.

(** ** PayPal *)
Lemma union_swap (a b x : gset str) : a ∪ (b ∪ x) = b ∪ (a ∪ x).
Proof. set_solver. Qed.
Lemma pp_more ho db ns v i : hash_order_ok ho → fp_part ns →
  let x := pp_form_postings ho false (with_index i (pp_mk db ns v)) in let x' := pp_form_postings ho true (with_index i (pp_mk db ns v)) in
  one_more ns x.1 x'.1 ∧ one_more ns x.2 x'.2.
Proof.
  intros Hho Hn. assert (∀ s, fp_ok (fp_of (s2l "ppcsv") 1 ns (pp_message v i s))) as Hok by (intros s; apply fp_of_ok; [apply part_pp|done]).
  unfold pp_form_postings. cbn zeta. cbn [fst snd with_option_tag]. split.
  - eapply one_more_posting; [done| |apply good_tag_ok, good_legacy_tag, (Hok Self)|by apply (old_of (s2l "ppcsv") 1 ns (pp_message v i Self))|..].
    + apply fine_tag; [apply good_tag_ok, good_tag, (Hok Self)|]. apply fine_opt_value. apply fine_tag; [apply tag_unknown|]. apply fine_tag; [apply tag_self|apply fine_new].
    + by destruct (pp_receipt_id _).
    + by destruct (pp_receipt_id _).
    + destruct (pp_receipt_id _); apply union_swap.
  - eapply one_more_posting; [done| |apply good_tag_ok, good_legacy_tag, (Hok Peer)|by apply (old_of (s2l "ppcsv") 1 ns (pp_message v i Peer))|..].
    + apply fine_opt_value, fine_value. apply fine_tag; [apply tag_unknown|]. apply fine_tag; [apply tag_peer|apply fine_new].
    + by destruct (pp_name _).
    + by destruct (pp_name _).
    + by destruct (pp_name _).
Qed.
Lemma group_more ho db ns g : hash_order_ok ho → fp_part ns → Forall2 (one_more ns) (group_posts ho false db ns g) (group_posts ho true db ns g).
Proof.
  intros Hho Hn. unfold group_posts.
  assert (∀ n, Forall2 (one_more ns)
    (mjoin (imap (λ i v, let '(p1, p2) := pp_form_postings ho false (with_index (n + i) (pp_mk db ns v)) in [p1; p2]) g))
    (mjoin (imap (λ i v, let '(p1, p2) := pp_form_postings ho true (with_index (n + i) (pp_mk db ns v)) in [p1; p2]) g))) as H; [|exact (H 0)].
  induction g as [|v g IH]; intros n; [constructor|]. rewrite !imap_cons, !mjoin_cons. apply Forall2_app.
  - rewrite Nat.add_0_r. destruct (pp_more ho db ns v n Hho Hn) as [H1 H2].
    destruct (pp_form_postings ho false _), (pp_form_postings ho true _). (constructor; [done|constructor; [done|constructor]]).
  - specialize (IH (S n)). unfold compose.
    erewrite (imap_ext _ (λ i v, let '(p1, p2) := pp_form_postings ho false (with_index (S n + i) (pp_mk db ns v)) in [p1; p2])).
    2:{ intros i x _. by replace (n + S i) with (S n + i) by lia. }
    erewrite (imap_ext (λ i v, let '(p1, p2) := pp_form_postings ho true (with_index (n + S i) (pp_mk db ns v)) in [p1; p2])
      (λ i v, let '(p1, p2) := pp_form_postings ho true (with_index (S n + i) (pp_mk db ns v)) in [p1; p2])).
    2:{ intros i x _. by replace (n + S i) with (S n + i) by lia. }
    exact IH.
Qed.
Lemma form_more ho tz db ns t g : hash_order_ok ho → fp_part ns →
  both (trn_one_more ns) (pp_form_transaction ho false tz (t, pp_mk db ns <$> g)) (pp_form_transaction ho true tz (t, pp_mk db ns <$> g)).
Proof.
  intros Hho Hn. unfold pp_form_transaction. cbn [fst snd]. destruct (find_map _ _) as [n|]; [|done]. cbn zeta. rewrite !imap_fmap_in.
  split; [done|]. cbn [t_postings]. by apply group_more.
Qed.
Lemma c149_paypal ho tz db ns rows : hash_order_ok ho →
  both (Forall2 (trn_one_more ns)) (pp_import ho false tz db ns rows) (pp_import ho true tz db ns rows).
Proof.
  intros Hho. unfold pp_import. destruct (rmapM (from_csv_record db ns) rows) as [records| |] eqn:E; [|done..]. cbn [rbind].
  apply records_ok in E as (Hn & _ & ->). rewrite chunk_fmap. destruct Hn as [->|Hn]; [constructor|].
  induction (chunk_by _ rows) as [|[t g] gs IH]; [constructor|]. rewrite fmap_cons. cbn [rmapM fst snd].
  eapply both_bind; [by apply form_more|]. intros x x' Hx. eapply both_bind; [exact IH|]. intros l l' Hl. by constructor.
Qed.

(** Proofs for C108: imports, rules and merging. *)
From Verif Require Import MergeClaims.
From Verif Require Import Base Types SpecBase BaseProofs CommentModel MergeModel CmdModel FingerprintModel NwCsvModel TzModel PaypalModel
  CmdClaims ImportClaims EditClaims WindowClaims StatementClaims MergeProofs MergeLemmas MergeDays ImportDays PaypalDays
  RulesModel RulesClaims RulesProofs RulesLaws RulesLoad RulesCmd RulesEdit CmdProofs CmdIdem
  HeaderClaims HeaderLaws CmdPlain ImporterModel WorkCmdClaims WorkCmd CommentExamples PipeClaims.
From Coq Require Import Lia.
Local Open Scope nat_scope.

(** * Rules and parts of a journal *)
Lemma posts_end_det X T t ps t1 ps1 t2 ps2 : posts_end X T t ps t1 ps1 → posts_end X T t ps t2 ps2 → t1 = t2 ∧ ps1 = ps2.
Proof.
  intros H. revert t2 ps2. induction H as [t|t p ps t1 p1 t2 ps2 Hc H IH]; intros t3 ps3 H3; inversion H3 as [|? ? ? t4 p4 ? ? Hc' H4]; subst; [done|].
  pose proof (c54_det X T _ _ _ _ Hc Hc') as E. simplify_eq. by destruct (IH _ _ H4) as [-> ->].
Qed.
Lemma ruled_det X T tps J J' : ruled X T tps J → ruled X T tps J' → J = J'.
Proof.
  intros H. revert J'. induction H as [|tp tp1 tps J H _ IH]; intros J' H'; inversion H' as [|? tp2 ? J2 H2 H3]; subst; [done|].
  destruct (posts_end_det _ _ _ _ _ _ _ _ H H2) as [E1 E2]. destruct tp1, tp2. cbn in *. subst. f_equal. by apply IH.
Qed.
Lemma ruled_app X T l k J K : ruled X T l J → ruled X T k K → ruled X T (l ++ k) (J ++ K).
Proof. apply Forall2_app. Qed.
Lemma ruled_bind X T (f g : nat → list transaction_postings) w : (∀ k, k ∈ w → ruled X T (f k) (g k)) → ruled X T (w ≫= f) (w ≫= g).
Proof.
  induction w as [|k w IH]; intros H; [constructor|]. rewrite !bind_cons. apply ruled_app; [apply H; left|]. apply IH. intros i Hi. apply H. by right.
Qed.
Lemma ruled_part X T (f : nat → list transaction_postings) w k J : k ∈ w → ruled X T (w ≫= f) J → ∃ K, ruled X T (f k) K.
Proof.
  revert J. induction w as [|i w IH]; intros J Hk H; [by apply elem_of_nil in Hk|]. rewrite bind_cons in H.
  apply Forall2_app_inv_l in H as (J1 & J2 & H1 & H2 & ->). apply elem_of_cons in Hk as [->|Hk]; [by exists J1|]. by apply (IH J2).
Qed.
Lemma pick {A} (P : nat → A → Prop) (a : A) (l : list nat) : (∀ k, k ∈ l → ∃ a, P k a) → ∃ g, ∀ k, k ∈ l → P k (g k).
Proof.
  induction l as [|i l IH]; intros H. { exists (λ _, a). intros k Hk. by apply elem_of_nil in Hk. }
  destruct IH as [g Hg]. { intros k Hk. apply H. by right. } destruct (H i) as [b Hb]; [left|].
  exists (λ k, if decide (k = i) then b else g k). intros k Hk. destruct (decide (k = i)) as [->|Hn]; [done|].
  apply elem_of_cons in Hk as [->|Hk]; [done|]. by apply Hg.
Qed.
Lemma ruled_updates X T tps J : is_Some (T !! s2l "start") → ruled X T tps J → ∃ ho n, hash_order_ok ho ∧ update_transactions X ho T n tps = Some (Ok J).
Proof.
  intros Hs H. apply (c54_journal X default_order) in H as [n Hn]; [|apply default_order_ok|done].
  exists default_order, n. split; [apply default_order_ok|done].
Qed.
Lemma ruled_changes X T tps J : is_Some (T !! s2l "start") → ruled X T tps J → Forall2 (tp_changes T) tps J.
Proof. intros Hs (ho & n & Hho & H)%ruled_updates; [|done]. by eapply c53_changes. Qed.
Lemma ruled_kept X T tps J : is_Some (T !! s2l "start") → ruled X T tps J → Forall2 tp_kept tps J.
Proof. intros Hs (ho & n & Hho & H)%ruled_updates; [|done]. by eapply c53_kept. Qed.

(** Days, each with rules applied. *)
Lemma ruled_pieces X T (f : nat → list transaction_postings) seen ws hos Js :
  is_Some (T !! s2l "start") → leaves_fingerprints T → journal_ok (seen ≫= f) →
  (∀ i k a b, i ∈ seen → k ∈ seen → a ∈ f i → b ∈ f k → tp_date a = tp_date b ↔ i = k) →
  covers ws seen → Forall NoDup ws → length hos = length ws → Forall hash_order_ok hos →
  Forall2 (ruled X T) ((λ w, w ≫= f) <$> ws) Js →
  ∃ J m, ruled X T (seen ≫= f) J ∧ clean_run merger_new (zip hos Js) m ∧
    ∀ ho, hash_order_ok ho → build ho m = Ok (stable_sort (by_key tp_date) J).
Proof.
  intros Hs HT Hok Hd Hcov Hnd Hlen Hhos HJ.
  assert (∀ k, k ∈ seen → ∃ K, ruled X T (f k) K) as Hall.
  { intros k Hk. destruct Hcov as [_ Hcov]. apply Hcov in Hk as (w & Hw & Hk).
    assert (w ≫= f ∈ (λ w, w ≫= f) <$> ws) as [i Hi]%elem_of_list_lookup by (apply elem_of_list_fmap; eauto).
    destruct (Forall2_lookup_l _ _ _ _ _ HJ Hi) as (J & _ & H). by eapply ruled_part. }
  destruct (pick _ [] seen Hall) as [g Hg]. assert (Hwhole := ruled_bind X T f g seen Hg). exists (seen ≫= g).
  assert (Js = (λ w, w ≫= g) <$> ws) as ->.
  { assert (∀ w, w ∈ ws → ∀ k, k ∈ w → k ∈ seen) as Hsub by (intros w Hw k Hk; apply Hcov; eauto). clear -HJ Hg Hsub.
    revert Js HJ. induction ws as [|w ws IH]; intros Js HJ; rewrite ?fmap_cons in HJ; inversion HJ as [|? J ? Js' H1 H2]; subst; [done|]. rewrite fmap_cons. f_equal.
    - eapply ruled_det; [exact H1|]. apply ruled_bind. intros k Hk. apply Hg. eapply Hsub; [left|done].
    - apply IH; [|done]. intros w' Hw'. apply Hsub. by right. }
  destruct (pieces_merge g seen ws hos) as (m & Hm & Hb); try done.
  - eapply rules_journal_ok; [done|by eapply ruled_changes|done].
  - assert (∀ k b, k ∈ seen → b ∈ g k → ∃ a, a ∈ f k ∧ tp_date a = tp_date b) as Hdate.
    { intros k b Hk [i Hi]%elem_of_list_lookup. pose proof (ruled_kept X T _ _ Hs (Hg k Hk)) as HF.
      destruct (Forall2_lookup_r _ _ _ _ _ HF Hi) as (a & Ha & Hka & _). exists a. split; [by eapply elem_of_list_lookup_2|].
      symmetry. apply (tk_date _ _ Hka). }
    intros i k a b Hi Hk Ha Hb. destruct (Hdate i a Hi Ha) as (a' & Ha' & <-), (Hdate k b Hk Hb) as (b' & Hb' & <-). by apply Hd.
  - exists m. done.
Qed.
Lemma c108_nationwide pd o name rows ws tss seen ts hos X T Js :
  parser_ok pd → days rec_date rows → Forall2 (nw_statement pd o name rows) ws tss →
  covers ws seen → nw_statement pd o name rows seen ts → ¬ statement_collides (window rows seen) →
  is_Some (T !! s2l "start") → leaves_fingerprints T → Forall2 (ruled X T) (as_merged <$> tss) Js →
  length hos = length ws → Forall hash_order_ok hos →
  ∃ J m, ruled X T (as_merged ts) J ∧ clean_run merger_new (zip hos Js) m ∧
    ∀ ho, hash_order_ok ho → build ho m = Ok (stable_sort (by_key tp_date) J).
Proof.
  intros Hpd Hd Hws Hcov Hts Hcol Hs HT HJ Hlen Hhos. destruct (nw_pieces pd o name rows ws tss seen ts) as (f & -> & Ef & Hok & Hda & Hnd); try done.
  rewrite Ef in HJ. by eapply ruled_pieces.
Qed.
Lemma c108_paypal tz db ns groups ws tss seen ts hos X T Js :
  days (λ g, tz g.1) groups → Forall2 (pp_statement tz db ns groups) ws tss →
  covers ws seen → pp_statement tz db ns groups seen ts → NoDup (window groups seen).*1 → ¬ groups_collide (window groups seen) →
  is_Some (T !! s2l "start") → leaves_fingerprints T → Forall2 (ruled X T) (as_merged <$> tss) Js →
  length hos = length ws → Forall hash_order_ok hos →
  ∃ J m, ruled X T (as_merged ts) J ∧ clean_run merger_new (zip hos Js) m ∧
    ∀ ho, hash_order_ok ho → build ho m = Ok (stable_sort (by_key tp_date) J).
Proof.
  intros Hd Hws Hcov Hts Htimes Hcol Hs HT HJ Hlen Hhos. destruct (pp_pieces tz db ns groups ws tss seen ts) as (f & -> & Ef & Hok & Hda & Hnd); try done.
  rewrite Ef in HJ. by eapply ruled_pieces.
Qed.

(** * Through the files *)
Lemma journal_read_fun E w p tps tps' : journal_read E w (Path p) tps → journal_read E w (Path p) tps' → tps = tps'.
Proof.
  intros (l & w1 & H & _ & ->) (l' & w2 & H' & _ & ->). inversion H; inversion H'; subst. by simplify_eq.
Qed.
Lemma rules_loaded_fun F rules T T' : rules_loaded F rules T → rules_loaded F rules T' → T = T'.
Proof.
  intros (_ & _ & H & _) (_ & _ & H' & _). apply map_eq. intros n. apply option_eq. intros rs. rewrite (H n rs). by rewrite (H' n rs).
Qed.
Lemma rulings_files E X F rules T w rs w' tpss :
  one_file F → rules_loaded F rules T → rulings E X F rules w rs w' → NoDup (rr_out <$> rs) →
  (∀ i k r r', rs !! i = Some r → rs !! k = Some r' → i < k → rr_out r ≠ rr_in r') →
  Forall2 (λ r tps, journal_read E w (Path (rr_in r)) tps) rs tpss →
  ∃ Js, Forall2 (ruled X T) tpss Js ∧
    Forall2 (λ r J, hash_order_ok (rr_order r) ∧ w_files w' !! rr_out r = Some (e_print E (into_ledger (rr_order r) J))) rs Js ∧
    ∀ p, p ∉ rr_out <$> rs → w_files w' !! p = w_files w !! p.
Proof.
  intros Hone HT H. revert tpss. induction H as [w|w r es rs w' Hho Hc H IH]; intros tpss Hnd Hlt Hj.
  { inversion Hj; subst. exists []. split_and!; [constructor|constructor|done]. }
  inversion Hj as [|? tps ? tpss' Hj1 Hj2]; subst. rewrite fmap_cons, NoDup_cons in Hnd. destruct Hnd as [Hn Hnd].
  destruct (c58_written E X F _ _ _ _ _ _ _ Hho Hone Hc) as (J & (T' & tps' & HT' & Hr & HJ) & Hh & Hsame).
  rewrite (rules_loaded_fun _ _ _ _ HT' HT) in HJ. rewrite (journal_read_fun _ _ _ _ _ Hr Hj1) in HJ.
  destruct (IH tpss' Hnd) as (Js & H1 & H2 & H3).
  { intros i k r1 r2 Hi Hk Hik. apply (Hlt (S i) (S k)); [done..|lia]. }
  { clear -Hj2 Hsame Hlt. assert (∀ i r', rs !! i = Some r' → rr_out r ≠ rr_in r') as Hne. { intros i r' Hi. by apply (Hlt 0 (S i) r r'); [| |lia]. }
    clear Hlt. induction Hj2 as [|r' tps rs tpss H Hj2 IH]; [constructor|]. constructor.
    - destruct H as (l & w1 & H & Hs & ->). inversion H as [? ? text ? Hf Hx Hp|]; subst. eexists l, _. split_and!; [|done|done].
      econstructor; [done| |done]. rewrite <- Hx. apply Hsame. intros E0. injection E0 as E0. by apply (Hne 0 r').
    - apply IH. intros i r1 Hi. by apply (Hne (S i)). }
  exists (J :: Js). split; [by constructor|]. split.
  - constructor; [|done]. split; [done|]. rewrite H3 by done. exact Hh.
  - intros p [Hp1 Hp2]%not_elem_of_cons. rewrite H3 by done. apply Hsame. congruence.
Qed.
Lemma ruled_clean X T tps J : is_Some (T !! s2l "start") → ruled X T tps J → Forall clean_tp tps → Forall clean_tp J.
Proof.
  intros Hs H Hc. apply ruled_kept in H; [|done]. apply Forall_forall. intros tp [i Hi]%elem_of_list_lookup.
  destruct (Forall2_lookup_r _ _ _ _ _ H Hi) as (tp0 & Hi0 & Hk & Hps). destruct (Forall_lookup_1 _ _ _ _ Hc Hi0) as [H1 H2]. split.
  - unfold clean_trn in *. destruct H1 as [H1 H1']. split; [by rewrite (tk_comment _ _ Hk)|by rewrite (tk_postings _ _ Hk)].
  - apply Forall_forall. intros p [k Hkk]%elem_of_list_lookup. destruct (Forall2_lookup_r _ _ _ _ _ Hps Hkk) as (p0 & Hp0 & Hpk).
    unfold clean_post. rewrite (pk_comment _ _ Hpk). exact (Forall_lookup_1 _ _ _ _ H2 Hp0).
Qed.
Lemma rulings_journals E X F rules T w rs w' tpss :
  one_file F → rules_loaded F rules T → rulings E X F rules w rs w' → NoDup (rr_out <$> rs) →
  (∀ i k r r', rs !! i = Some r → rs !! k = Some r' → i < k → rr_out r ≠ rr_in r') →
  Forall2 (λ r tps, journal_read E w (Path (rr_in r)) tps) rs tpss → (∀ r, r ∈ rs → f_read E (Path (rr_out r)) = false) →
  (∀ tps J, tps ∈ tpss → ruled X T tps J → reads_back E J) →
  ∃ Js, Forall2 (ruled X T) tpss Js ∧ journals E w' (Path ∘ rr_out <$> rs) Js w'.
Proof.
  intros Hone HT H Hnd Hlt Hj Hr Hb. destruct (rulings_files E X F rules T w rs w' tpss) as (Js & H1 & H2 & _); try done. exists Js. split; [done|].
  assert (is_Some (T !! s2l "start")) as Hs by apply HT. assert (Forall (Forall clean_tp) tpss) as Hc.
  { clear -Hj. induction Hj as [|r tps rs tpss (l & ? & _ & _ & ->) _ IH]; [constructor|]. constructor; [|done].
    apply Forall_fmap, Forall_forall. intros t _. apply clean_of. }
  clear H Hnd Hlt Hj HT. revert tpss H1 Hb Hc. induction H2 as [|r J rs Js [Hho Hf] H2 IH]; intros tpss H1 Hb Hc; [constructor|].
  inversion H1 as [|tps ? tpss' ? HJ H1']; subst. rewrite Forall_cons in Hc. destruct Hc as [Hc Hc'].
  destruct (Hb tps J) as [Hb1 Hb2]; [left|done|]. rewrite fmap_cons.
  assert (transaction_postings_of <$> ledger_trns (into_ledger (rr_order r) J) = J) as E1.
  { apply from_into_ledger; [done|by eapply ruled_clean|]. intros tp Htp. by apply Hb2. }
  assert (journals E w' (Path (rr_out r) :: (Path ∘ rr_out <$> rs)) ((transaction_postings_of <$> ledger_trns (into_ledger (rr_order r) J)) :: Js) w') as Hres.
  { econstructor.
    - eapply reads_path; [apply Hr; left|exact Hf|by apply Hb1].
    - apply ledger_supported.
    - intros t Ht. apply Hb2. rewrite <- E1. by apply elem_of_list_fmap_1.
    - apply (IH ltac:(intros; apply Hr; by right) tpss'); [done| |done]. intros ? ? ?. apply Hb. by right. }
  by rewrite E1 in Hres.
Qed.
Lemma merge_files E ho um output w inputs tss m out :
  hash_order_ok ho → journals E w inputs tss w → clean_run merger_new (zip (replicate (length tss) ho) tss) m → build ho m = Ok out →
  (∀ f, um = Some f → writable E f) → writable E output →
  ∃ es, merge_cmd E ho inputs um output w = (es, Ok tt) ∧
    holds w (steps w es) output (e_print E (into_ledger ho out)) ∧ ∀ p, Path p ≠ output → same_file w (steps w es) p.
Proof.
  intros Hho Hj Hm Hbuild Hum Hout. apply (clean_merges ho) in Hm.
  2:{ apply Forall_forall. intros [h s] Hin. apply elem_of_zip_l in Hin. by apply elem_of_replicate_inv in Hin. }
  rewrite snd_zip in Hm by (by rewrite replicate_length).
  destruct (c99_journals E ho _ um output w _ w [] m Hho Hj Hm (or_introl eq_refl) Hum Hout) as (es & un' & out' & Hes & Hb' & _ & H1 & _ & H3).
  assert (out' = out) as -> by congruence. exists es. split; [done|]. split; [apply H1; auto|]. intros p Hp. by apply H3.
Qed.
Lemma journals_each E w fs tpss w' : journals E w fs tpss w' → ∀ ps, fs = Path <$> ps → Forall2 (λ p tps, journal_read E w (Path p) tps) ps tpss.
Proof.
  induction 1 as [w|w f l w1 fs tpss w2 H Hs Ht Hj IH]; intros ps Eps; destruct ps as [|p ps]; simplify_eq/=; [constructor|].
  inversion H; subst. constructor; [by exists l, w1|]. by apply IH.
Qed.

Lemma c108_nationwide_cmd E V pd o name rows ss w tss w' seen ts X F rules T rs w2 ho um output :
  parser_ok pd → days rec_date rows → hash_order_ok ho →
  imports E w (nw_run E V pd o <$> ss) tss w' → Forall (nw_file V pd name rows w) ss →
  (∀ s, s ∈ ss → f_read E (Path (sf_csv s)) = false ∧ f_read E (Path (sf_out s)) = false) →
  NoDup (sf_out <$> ss) → (∀ s s', s ∈ ss → s' ∈ ss → sf_csv s ≠ sf_out s') → Forall (prints_back E) tss →
  covers (sf_days <$> ss) seen → nw_statement pd o name rows seen ts → ¬ statement_collides (window rows seen) →
  one_file F → rules_loaded F rules T → leaves_fingerprints T →
  rulings E X F rules w' rs w2 → rr_in <$> rs = sf_out <$> ss → NoDup (rr_out <$> rs) →
  (∀ i k r r', rs !! i = Some r → rs !! k = Some r' → i < k → rr_out r ≠ rr_in r') →
  (∀ r, r ∈ rs → f_read E (Path (rr_out r)) = false) →
  (∀ ts J, ts ∈ tss → ruled X T (as_merged ts) J → reads_back E J) →
  (∀ f, um = Some f → writable E f) → writable E output →
  ∃ J es, ruled X T (as_merged ts) J ∧ merge_cmd E ho (Path ∘ rr_out <$> rs) um output w2 = (es, Ok tt) ∧
    holds w2 (steps w2 es) output (e_print E (into_ledger ho (stable_sort (by_key tp_date) J))) ∧
    ∀ p, Path p ≠ output → same_file w2 (steps w2 es) p.
Proof.
  intros Hpd Hd Hho Hi Hf Hr Hnd Hdis Hb Hcov Hts Hcol Hone HT Hlf Hru Hin Hnd2 Hlt Hr2 Hb2 Hum Hout.
  destruct (nw_imports E V pd o name rows ss w tss w' Hi Hnd Hf (λ s Hs, proj1 (Hr s Hs)) Hdis) as [Hst Hnc].
  assert (journals E w' (Path <$> (rr_in <$> rs)) (as_merged <$> tss) w') as Hj.
  { rewrite Hin, <- (nw_runs_out E V pd o). eapply imports_journals; try done.
    - apply Forall_fmap, Forall_true. intros s w0. apply nw_only_reads.
    - by rewrite nw_runs_out.
    - rewrite nw_runs_out. intros p (s & -> & Hs)%elem_of_list_fmap. by apply Hr. }
  pose proof (journals_each _ _ _ _ _ Hj (rr_in <$> rs) eq_refl) as Hje. rewrite Forall2_fmap_l in Hje.
  destruct (rulings_journals E X F rules T w' rs w2 (as_merged <$> tss)) as (Js & HJ & Hjs); try done.
  { intros tps J (ts0 & -> & Hts0)%elem_of_list_fmap. by apply Hb2. }
  assert (length Js = length (sf_days <$> ss)) as Hl.
  { rewrite (Forall2_length _ _ _ Hst), <- (Forall2_length _ _ _ HJ). by rewrite fmap_length. }
  destruct (c108_nationwide pd o name rows (sf_days <$> ss) tss seen ts (replicate (length Js) ho) X T Js) as (J & m & H1 & H2 & H3); try done.
  { apply HT. } { by rewrite replicate_length. } { by apply Forall_replicate. }
  exists J. destruct (merge_files E ho um output w2 _ Js m _ Hho Hjs H2 (H3 ho Hho) Hum Hout) as (es & ? & ? & ?). by exists es.
Qed.
Lemma c108_paypal_cmd E V tz db ns abbrs groups ss w tss w' seen ts X F rules T rs w2 ho um output :
  days (λ g, tz g.1) groups → hash_order_ok ho →
  imports E w (pp_run E V tz ns abbrs <$> ss) tss w' → Forall (pp_file V db groups w) ss →
  abbr_file V db w abbrs → f_read E (Path abbrs) = false → (∀ s, s ∈ ss → abbrs ≠ sf_out s) →
  (∀ s, s ∈ ss → f_read E (Path (sf_csv s)) = false ∧ f_read E (Path (sf_out s)) = false) →
  NoDup (sf_out <$> ss) → (∀ s s', s ∈ ss → s' ∈ ss → sf_csv s ≠ sf_out s') → Forall (prints_back E) tss →
  covers (sf_days <$> ss) seen → pp_statement tz db ns groups seen ts → NoDup (window groups seen).*1 → ¬ groups_collide (window groups seen) →
  one_file F → rules_loaded F rules T → leaves_fingerprints T →
  rulings E X F rules w' rs w2 → rr_in <$> rs = sf_out <$> ss → NoDup (rr_out <$> rs) →
  (∀ i k r r', rs !! i = Some r → rs !! k = Some r' → i < k → rr_out r ≠ rr_in r') →
  (∀ r, r ∈ rs → f_read E (Path (rr_out r)) = false) →
  (∀ ts J, ts ∈ tss → ruled X T (as_merged ts) J → reads_back E J) →
  (∀ f, um = Some f → writable E f) → writable E output →
  ∃ J es, ruled X T (as_merged ts) J ∧ merge_cmd E ho (Path ∘ rr_out <$> rs) um output w2 = (es, Ok tt) ∧
    holds w2 (steps w2 es) output (e_print E (into_ledger ho (stable_sort (by_key tp_date) J))) ∧
    ∀ p, Path p ≠ output → same_file w2 (steps w2 es) p.
Proof.
  intros Hd Hho Hi Hf Ha Hra Hab Hr Hnd Hdis Hb Hcov Hts Hnds Hcol Hone HT Hlf Hru Hin Hnd2 Hlt Hr2 Hb2 Hum Hout.
  destruct (pp_imports E V tz db ns abbrs groups ss w tss w' Hi Hnd Hf Ha Hra Hab (λ s Hs, proj1 (Hr s Hs)) Hdis) as [Hst Hnc].
  assert (journals E w' (Path <$> (rr_in <$> rs)) (as_merged <$> tss) w') as Hj.
  { rewrite Hin, <- (pp_runs_out E V tz ns abbrs). eapply imports_journals; try done.
    - apply Forall_fmap, Forall_true. intros s w0. apply pp_only_reads.
    - by rewrite pp_runs_out.
    - rewrite pp_runs_out. intros p (s & -> & Hs)%elem_of_list_fmap. by apply Hr. }
  pose proof (journals_each _ _ _ _ _ Hj (rr_in <$> rs) eq_refl) as Hje. rewrite Forall2_fmap_l in Hje.
  destruct (rulings_journals E X F rules T w' rs w2 (as_merged <$> tss)) as (Js & HJ & Hjs); try done.
  { intros tps J (ts0 & -> & Hts0)%elem_of_list_fmap. by apply Hb2. }
  assert (length Js = length (sf_days <$> ss)) as Hl.
  { rewrite (Forall2_length _ _ _ Hst), <- (Forall2_length _ _ _ HJ). by rewrite fmap_length. }
  destruct (c108_paypal tz db ns groups (sf_days <$> ss) tss seen ts (replicate (length Js) ho) X T Js) as (J & m & H1 & H2 & H3); try done.
  { apply HT. } { by rewrite replicate_length. } { by apply Forall_replicate. }
  exists J. destruct (merge_files E ho um output w2 _ Js m _ Hho Hjs H2 (H3 ho Hho) Hum Hout) as (es & ? & ? & ?). by exists es.
Qed.

(** Proofs for C123: rules before or after merging. *)
From Verif Require Import MergeClaims.
From Verif Require Import Base Types SpecBase BaseProofs CommentModel MergeModel MergeSpec CmdModel CmdClaims FingerprintModel NwCsvModel TzModel PaypalModel
  CommentClaims FingerprintClaims ImportClaims EditClaims OcrModel OcrClaims PdfModel PdfClaims WindowClaims StatementClaims PdfDaysClaims MergeProofs MergeLaws MergeDays ImportDays PaypalDays PdfDays
  RulesModel RulesClaims RulesProofs RulesLaws RulesLoad RulesCmd RulesEdit CmdProofs CmdIdem
  HeaderClaims HeaderLaws CmdPlain ImporterModel ImporterClaims WorkCmdClaims WorkCmd PdfWorkClaims PdfWork CommentExamples PipeClaims Pipe PipePdf RulesOrderClaims.
Local Open Scope nat_scope.

Lemma ruled_sort X T tps J : is_Some (T !! s2l "start") → ruled X T tps J →
  ruled X T (stable_sort (by_key tp_date) tps) (stable_sort (by_key tp_date) J).
Proof.
  intros Hs H. pose proof (ruled_kept X T tps J Hs H) as Hk. unfold ruled in *.
  assert (Forall2 (λ a b, posts_end X T (tp_trn a) (tp_posts a) (tp_trn b) (tp_posts b) ∧ tp_date b = tp_date a) tps J) as HF.
  { clear Hs. induction H as [|a b l k Hab H IH]; inversion Hk as [|? ? ? ? [Hd _] Hk']; subst; constructor; [|by apply IH].
    split; [done|]. exact (tk_date _ _ Hd). }
  eapply Forall2_impl; [eapply (Forall2_sort _ (by_key tp_date) (by_key tp_date)); [|exact HF]|].
  - intros a b c d [_ E1] [_ E2]. unfold by_key. by rewrite E1, E2.
  - by intros a b [? _].
Qed.

Lemma c123_nationwide pd o name rows ws tss seen ts hos X T Js :
  parser_ok pd → days rec_date rows → Forall2 (nw_statement pd o name rows) ws tss →
  covers ws seen → nw_statement pd o name rows seen ts → ¬ statement_collides (window rows seen) →
  is_Some (T !! s2l "start") → leaves_fingerprints T → Forall2 (ruled X T) (as_merged <$> tss) Js →
  length hos = length ws → Forall hash_order_ok hos → either_way X T hos (as_merged <$> tss) Js.
Proof.
  intros Hpd Hd Hws Hcov Hts Hcol Hs HT HJ Hlen Hhos.
  destruct (nw_overlaps pd o name rows ws tss seen ts hos) as (m & Hm & Hb); try done.
  destruct (c108_nationwide pd o name rows ws tss seen ts hos X T Js) as (J & m' & H1 & Hm' & Hb'); try done.
  exists m, m'. split; [done|]. split; [done|]. intros ho ho' Hho Hho'. eexists _, _. split; [by apply Hb|]. split; [by apply Hb'|]. by apply ruled_sort.
Qed.
Lemma c123_paypal tz db ns groups ws tss seen ts hos X T Js :
  days (λ g, tz g.1) groups → Forall2 (pp_statement tz db ns groups) ws tss →
  covers ws seen → pp_statement tz db ns groups seen ts → NoDup (window groups seen).*1 → ¬ groups_collide (window groups seen) →
  is_Some (T !! s2l "start") → leaves_fingerprints T → Forall2 (ruled X T) (as_merged <$> tss) Js →
  length hos = length ws → Forall hash_order_ok hos → either_way X T hos (as_merged <$> tss) Js.
Proof.
  intros Hd Hws Hcov Hts Htimes Hcol Hs HT HJ Hlen Hhos.
  destruct (pp_overlaps tz db ns groups ws tss seen ts hos) as (m & Hm & Hb); try done.
  destruct (c108_paypal tz db ns groups ws tss seen ts hos X T Js) as (J & m' & H1 & Hm' & Hb'); try done.
  exists m, m'. split; [done|]. split; [done|]. intros ho ho' Hho Hho'. eexists _, _. split; [by apply Hb|]. split; [by apply Hb'|]. by apply ruled_sort.
Qed.
Lemma c123_pdf E o name ds parts ws tss seen ts hos X T Js :
  env_ok E → whole_days ds parts → Forall2 (pdf_statement E o name parts) ws tss →
  covers ws seen → pdf_statement E o name parts seen ts → (∀ t, t ∈ ts → str_ok (t_description t)) →
  ¬ pdf_collides ts (sequence None 0 (window parts seen)) →
  is_Some (T !! s2l "start") → leaves_fingerprints T → Forall2 (ruled X T) (as_merged <$> tss) Js →
  length hos = length ws → Forall hash_order_ok hos → either_way X T hos (as_merged <$> tss) Js.
Proof.
  intros HE Hd Hws Hcov Hts Htx Hcol Hs HT HJ Hlen Hhos.
  destruct (pdf_overlaps E o name ds parts ws tss seen ts hos) as (m & Hm & Hb); try done.
  destruct (c108_pdf E o name ds parts ws tss seen ts hos X T Js) as (J & m' & H1 & Hm' & Hb'); try done.
  exists m, m'. split; [done|]. split; [done|]. intros ho ho' Hho Hho'. eexists _, _. split; [by apply Hb|]. split; [by apply Hb'|]. by apply ruled_sort.
Qed.

(** * Through files *)
Lemma rules_on_file E X F paths rules T ho w file tps J final :
  hash_order_ok ho → one_file F → all_paths F paths → rules_loaded F rules T →
  f_read E (Path file) = false → w_files w !! file = Some (e_print E (into_ledger ho tps)) → reads_back E tps → Forall clean_tp tps →
  ruled X T tps J → writable E (Path final) →
  ∃ n0, ∀ n, n0 ≤ n → ∃ es, rules_cmd E X F ho n rules (Path file) (Path final) w = (es, Ok (Some tt)) ∧
    w_files (steps w es) !! final = Some (e_print E (into_ledger ho J)).
Proof.
  intros Hho Hone Hall HT Hr Hf [Hb1 Hb2] Hcl HJ Hw.
  assert (journal_read E w (Path file) tps) as Hj.
  { eexists _, _. split; [eapply reads_path; [done|exact Hf|by apply Hb1]|]. split; [apply ledger_supported|].
    symmetry. apply from_into_ledger; [done|done|]. intros tp Htp. by apply Hb2. }
  assert (rules_applied E X F w rules (Path file) J) as Ha by by exists T, tps.
  destruct (c58_succeeds E X F ho paths rules (Path file) (Path final) w J Hho Hone Hall Ha Hw) as [n0 Hn]. exists n0. intros n Hle.
  destruct (Hn n Hle) as [es Hes]. exists es. split; [done|].
  destruct (c58_written E X F ho n rules _ _ w es Hho Hone Hes) as (J' & (T' & tps' & HT' & Hr' & HJ') & Hh & _).
  rewrite (rules_loaded_fun _ _ _ _ HT' HT) in HJ'. rewrite (journal_read_fun _ _ _ _ _ Hr' Hj) in HJ'.
  rewrite (ruled_det X T _ _ _ HJ' HJ) in Hh. exact Hh.
Qed.
Lemma sorted_clean ts : Forall clean_tp (stable_sort (by_key tp_date) (as_merged ts)).
Proof.
  apply Forall_forall. intros tp Htp. rewrite (stable_sort_perm _ _) in Htp. unfold as_merged in Htp.
  apply elem_of_list_fmap in Htp as (t & -> & _). apply clean_of.
Qed.
Lemma both_texts E X F paths rules T ho um w raw merged w2 done final ts J es es' :
  hash_order_ok ho → one_file F → all_paths F paths → rules_loaded F rules T →
  f_read E (Path merged) = false → reads_back E (stable_sort (by_key tp_date) (as_merged ts)) → writable E (Path final) →
  merge_cmd E ho (Path <$> raw) um (Path merged) w = (es, Ok tt) →
  holds w (steps w es) (Path merged) (e_print E (into_ledger ho (stable_sort (by_key tp_date) (as_merged ts)))) →
  merge_cmd E ho (Path <$> done) um (Path final) w2 = (es', Ok tt) →
  ruled X T (as_merged ts) J → holds w2 (steps w2 es') (Path final) (e_print E (into_ledger ho (stable_sort (by_key tp_date) J))) →
  same_text E X F rules ho um w raw merged w2 done final.
Proof.
  intros Hho Hone Hall HT Hr Hb Hw Hes Hh Hes' HJ Hh'. exists es, es'. split; [done|]. split; [done|].
  destruct (rules_on_file E X F paths rules T ho (steps w es) merged _ _ final Hho Hone Hall HT Hr Hh Hb (sorted_clean ts) (ruled_sort X T _ _ (proj1 (proj2 (proj2 (proj2 HT)))) HJ) Hw) as [n0 Hn].
  exists n0. intros n Hle. destruct (Hn n Hle) as (es2 & H1 & H2). exists es2. split; [done|]. eexists. split; [exact H2|exact Hh'].
Qed.

Lemma c123_nationwide_cmd E V pd o name rows ss w tss w' seen ts X F paths rules T rs w2 ho um merged final :
  parser_ok pd → days rec_date rows → hash_order_ok ho →
  imports E w (nw_run E V pd o <$> ss) tss w' → Forall (nw_file V pd name rows w) ss →
  (∀ s, s ∈ ss → f_read E (Path (sf_csv s)) = false ∧ f_read E (Path (sf_out s)) = false) →
  NoDup (sf_out <$> ss) → (∀ s s', s ∈ ss → s' ∈ ss → sf_csv s ≠ sf_out s') → Forall (prints_back E) tss →
  covers (sf_days <$> ss) seen → nw_statement pd o name rows seen ts → ¬ statement_collides (window rows seen) →
  one_file F → all_paths F paths → rules_loaded F rules T → leaves_fingerprints T →
  rulings E X F rules w' rs w2 → rr_in <$> rs = sf_out <$> ss → NoDup (rr_out <$> rs) →
  (∀ i k r r', rs !! i = Some r → rs !! k = Some r' → i < k → rr_out r ≠ rr_in r') →
  (∀ r, r ∈ rs → f_read E (Path (rr_out r)) = false) →
  (∀ ts J, ts ∈ tss → ruled X T (as_merged ts) J → reads_back E J) →
  f_read E (Path merged) = false → reads_back E (stable_sort (by_key tp_date) (as_merged ts)) →
  (∀ f, um = Some f → writable E f) → writable E (Path merged) → writable E (Path final) →
  same_text E X F rules ho um w' (sf_out <$> ss) merged w2 (rr_out <$> rs) final.
Proof.
  intros Hpd Hd Hho Hi Hf Hr Hnd Hdis Hb Hcov Hts Hcol Hone Hall HT Hlf Hru Hin Hnd2 Hlt Hr2 Hb2 Hrm Hbm Hum Hw1 Hw2.
  destruct (c100_nationwide E V pd o name rows ss w tss w' seen ts ho um (Path merged)) as (es & He & Hh & _); try done.
  destruct (c108_nationwide_cmd E V pd o name rows ss w tss w' seen ts X F rules T rs w2 ho um (Path final)) as (J & es' & HJ & He' & Hh' & _); try done.
  rewrite list_fmap_compose in He. rewrite list_fmap_compose in He'. by eapply both_texts.
Qed.
Lemma c123_paypal_cmd E V tz db ns abbrs groups ss w tss w' seen ts X F paths rules T rs w2 ho um merged final :
  days (λ g, tz g.1) groups → hash_order_ok ho →
  imports E w (pp_run E V tz ns abbrs <$> ss) tss w' → Forall (pp_file V db groups w) ss →
  abbr_file V db w abbrs → f_read E (Path abbrs) = false → (∀ s, s ∈ ss → abbrs ≠ sf_out s) →
  (∀ s, s ∈ ss → f_read E (Path (sf_csv s)) = false ∧ f_read E (Path (sf_out s)) = false) →
  NoDup (sf_out <$> ss) → (∀ s s', s ∈ ss → s' ∈ ss → sf_csv s ≠ sf_out s') → Forall (prints_back E) tss →
  covers (sf_days <$> ss) seen → pp_statement tz db ns groups seen ts → NoDup (window groups seen).*1 → ¬ groups_collide (window groups seen) →
  one_file F → all_paths F paths → rules_loaded F rules T → leaves_fingerprints T →
  rulings E X F rules w' rs w2 → rr_in <$> rs = sf_out <$> ss → NoDup (rr_out <$> rs) →
  (∀ i k r r', rs !! i = Some r → rs !! k = Some r' → i < k → rr_out r ≠ rr_in r') →
  (∀ r, r ∈ rs → f_read E (Path (rr_out r)) = false) →
  (∀ ts J, ts ∈ tss → ruled X T (as_merged ts) J → reads_back E J) →
  f_read E (Path merged) = false → reads_back E (stable_sort (by_key tp_date) (as_merged ts)) →
  (∀ f, um = Some f → writable E f) → writable E (Path merged) → writable E (Path final) →
  same_text E X F rules ho um w' (sf_out <$> ss) merged w2 (rr_out <$> rs) final.
Proof.
  intros Hd Hho Hi Hf Ha Hra Hab Hr Hnd Hdis Hb Hcov Hts Hnds Hcol Hone Hall HT Hlf Hru Hin Hnd2 Hlt Hr2 Hb2 Hrm Hbm Hum Hw1 Hw2.
  destruct (c100_paypal E V tz db ns abbrs groups ss w tss w' seen ts ho um (Path merged)) as (es & He & Hh & _); try done.
  destruct (c108_paypal_cmd E V tz db ns abbrs groups ss w tss w' seen ts X F rules T rs w2 ho um (Path final)) as (J & es' & HJ & He' & Hh' & _); try done.
  rewrite list_fmap_compose in He. rewrite list_fmap_compose in He'. by eapply both_texts.
Qed.
Lemma c123_pdf_cmd E P o name ds parts ss w tss w' seen ts X F paths rules T rs w2 ho um merged final :
  env_ok P → whole_days ds parts → hash_order_ok ho →
  imports E w (pdf_run P o <$> ss) tss w' → Forall (pdf_file_ok P name parts) ss →
  (∀ s, s ∈ ss → f_read E (Path (pf_out s)) = false) → NoDup (pf_out <$> ss) → Forall (prints_back E) tss →
  covers (pf_days <$> ss) seen → pdf_statement P o name parts seen ts → (∀ t, t ∈ ts → str_ok (t_description t)) →
  ¬ pdf_collides ts (sequence None 0 (window parts seen)) →
  one_file F → all_paths F paths → rules_loaded F rules T → leaves_fingerprints T →
  rulings E X F rules w' rs w2 → rr_in <$> rs = pf_out <$> ss → NoDup (rr_out <$> rs) →
  (∀ i k r r', rs !! i = Some r → rs !! k = Some r' → i < k → rr_out r ≠ rr_in r') →
  (∀ r, r ∈ rs → f_read E (Path (rr_out r)) = false) →
  (∀ ts J, ts ∈ tss → ruled X T (as_merged ts) J → reads_back E J) →
  f_read E (Path merged) = false → reads_back E (stable_sort (by_key tp_date) (as_merged ts)) →
  (∀ f, um = Some f → writable E f) → writable E (Path merged) → writable E (Path final) →
  same_text E X F rules ho um w' (pf_out <$> ss) merged w2 (rr_out <$> rs) final.
Proof.
  intros HP Hd Hho Hi Hf Hr Hnd Hb Hcov Hts Htx Hcol Hone Hall HT Hlf Hru Hin Hnd2 Hlt Hr2 Hb2 Hrm Hbm Hum Hw1 Hw2.
  destruct (c100_pdf E P o name ds parts ss w tss w' seen ts ho um (Path merged)) as (es & He & Hh & _); try done.
  destruct (c108_pdf_cmd E P o name ds parts ss w tss w' seen ts X F rules T rs w2 ho um (Path final)) as (J & es' & HJ & He' & Hh' & _); try done.
  rewrite list_fmap_compose in He. rewrite list_fmap_compose in He'. by eapply both_texts.
Qed.

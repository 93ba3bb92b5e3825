(** Balances on statements and balance assertions of the merged journal (C131). *)
From Verif Require Import MergeClaims.
From Verif Require Import Base Types SpecBase BaseProofs CommentModel MergeModel CmdModel FingerprintModel NwCsvModel TzModel PaypalModel OcrModel PdfModel
  CommentClaims FingerprintClaims CmdClaims ImportClaims EditClaims WindowClaims StatementClaims PdfClaims PdfDaysClaims PdfDays ImportDays PaypalDays
  RulesModel RulesClaims HeaderClaims ImporterModel WorkCmdClaims PdfWorkClaims PipeClaims Pipe PipePdf AssertClaims Assert.
From Coq Require Import QArith.
Local Open Scope nat_scope.

Lemma c131_nationwide pd o name rows ws tss seen ts hos ens start :
  parser_ok pd → days rec_date rows → Forall2 (nw_statement pd o name rows) ws tss →
  covers ws seen → nw_statement pd o name rows seen ts → ¬ statement_collides (window rows seen) →
  length hos = length ws → Forall hash_order_ok hos →
  Forall2 nw_entry (stable_sort (by_key rec_date) (window rows seen)) ens → adds_up start ens →
  ∃ m, clean_run merger_new (zip hos (as_merged <$> tss)) m ∧
    ∀ ho, hash_order_ok ho → ∃ out, build ho m = Ok out ∧ assertions_hold (s2l "assets:unknown") start (all_posts out).
Proof.
  intros H0 H1 H2 H3 H4 H5 Hl Hh E0 E1. destruct (nw_overlaps pd o name rows ws tss seen ts hos) as (m & Hm & Hb); [done..|].
  exists m. split; [done|]. intros ho Hho. eexists. split; [by apply Hb|]. exact (nw_asserts pd o name rows seen ts ens start H4 E0 E1).
Qed.
Lemma c131_nationwide_ruled pd o name rows ws tss seen ts hos X T Js A ens start :
  parser_ok pd → days rec_date rows → Forall2 (nw_statement pd o name rows) ws tss →
  covers ws seen → nw_statement pd o name rows seen ts → ¬ statement_collides (window rows seen) →
  is_Some (T !! s2l "start") → leaves_fingerprints T → Forall2 (ruled X T) (as_merged <$> tss) Js →
  (∀ J, ruled X T (as_merged ts) J → puts_on A (as_merged ts) J) →
  length hos = length ws → Forall hash_order_ok hos →
  Forall2 nw_entry (stable_sort (by_key rec_date) (window rows seen)) ens → adds_up start ens →
  ∃ m, clean_run merger_new (zip hos Js) m ∧
    ∀ ho, hash_order_ok ho → ∃ out, build ho m = Ok out ∧ assertions_hold A start (all_posts out).
Proof.
  intros H0 H1 H2 H3 H4 H5 HT Hf HJ HA Hl Hh E0 E1. destruct (c108_nationwide pd o name rows ws tss seen ts hos X T Js) as (J & m & Hr & Hm & Hb); [done..|].
  exists m. split; [done|]. intros ho Hho. eexists. split; [by apply Hb|]. exact (nw_ruled_asserts pd o name rows seen ts ens start X T A J H4 E0 E1 HT Hr (HA J Hr)).
Qed.
Lemma c131_nationwide_cmd E V pd o name rows ss w tss w' seen ts X F rules T rs w2 ho um output A ens start :
  Forall2 nw_entry (stable_sort (by_key rec_date) (window rows seen)) ens → adds_up start ens →
  parser_ok pd → days rec_date rows → hash_order_ok ho →
  imports E w (nw_run E V pd o <$> ss) tss w' → Forall (nw_file V pd name rows w) ss →
  (∀ s, s ∈ ss → f_read E (Path (sf_csv s)) = false ∧ f_read E (Path (sf_out s)) = false) →
  NoDup (sf_out <$> ss) → (∀ s s', s ∈ ss → s' ∈ ss → sf_csv s ≠ sf_out s') → Forall (prints_back E) tss →
  covers (sf_days <$> ss) seen → nw_statement pd o name rows seen ts → ¬ statement_collides (window rows seen) →
  (* the rules, and their runs *)
  one_file F → rules_loaded F rules T → leaves_fingerprints T →
  rulings E X F rules w' rs w2 → rr_in <$> rs = sf_out <$> ss → NoDup (rr_out <$> rs) →
  (* no run overwrites the input of a later one *)
  (∀ i k r r', rs !! i = Some r → rs !! k = Some r' → i < k → rr_out r ≠ rr_in r') →
  (∀ r, r ∈ rs → f_read E (Path (rr_out r)) = false) →
  (∀ ts J, ts ∈ tss → ruled X T (as_merged ts) J → reads_back E J) →
  (∀ J, ruled X T (as_merged ts) J → puts_on A (as_merged ts) J) →
  (∀ f, um = Some f → writable E f) → writable E output →
  ∃ out es, merge_cmd E ho (Path ∘ rr_out <$> rs) um output w2 = (es, Ok tt) ∧
    holds w2 (steps w2 es) output (e_print E (into_ledger ho out)) ∧ assertions_hold A start (all_posts out).
Proof.
  intros E0 E1 K0 K1 K2 K3 K4 K5 K6 K7 K8 K9 K10 K11 K12 K13 K14 K15 K16 K17 K18 K19 K20 K21 K22 K23. destruct (c108_nationwide_cmd E V pd o name rows ss w tss w' seen ts X F rules T rs w2 ho um output) as (J & es & Hr & H1 & H2 & _); [done..|].
  exists (stable_sort (by_key tp_date) J), es. split; [done|]. split; [done|].
  assert (is_Some (T !! s2l "start")) as HT by apply K13. exact (nw_ruled_asserts pd o name rows seen ts ens start X T A J K10 E0 E1 HT Hr (K21 J Hr)).
Qed.
Lemma c131_paypal tz db ns groups ws tss seen ts hos start :
  days (λ g, tz g.1) groups → Forall2 (pp_statement tz db ns groups) ws tss →
  covers ws seen → pp_statement tz db ns groups seen ts → NoDup (window groups seen).*1 → ¬ groups_collide (window groups seen) →
  length hos = length ws → Forall hash_order_ok hos →
  adds_up start (pp_entry <$> (stable_sort (by_key (λ g, tz g.1)) (window groups seen) ≫= snd)) →
  ∃ m, clean_run merger_new (zip hos (as_merged <$> tss)) m ∧
    ∀ ho, hash_order_ok ho → ∃ out, build ho m = Ok out ∧ assertions_hold (s2l "assets:unknown") start (all_posts out).
Proof.
  intros H0 H1 H2 H3 H4 H5 Hl Hh E0. destruct (pp_overlaps tz db ns groups ws tss seen ts hos) as (m & Hm & Hb); [done..|].
  exists m. split; [done|]. intros ho Hho. eexists. split; [by apply Hb|]. exact (pp_asserts tz db ns groups seen ts start H3 E0).
Qed.
Lemma c131_paypal_ruled tz db ns groups ws tss seen ts hos X T Js A start :
  days (λ g, tz g.1) groups → Forall2 (pp_statement tz db ns groups) ws tss →
  covers ws seen → pp_statement tz db ns groups seen ts → NoDup (window groups seen).*1 → ¬ groups_collide (window groups seen) →
  is_Some (T !! s2l "start") → leaves_fingerprints T → Forall2 (ruled X T) (as_merged <$> tss) Js →
  (∀ J, ruled X T (as_merged ts) J → puts_on A (as_merged ts) J) →
  length hos = length ws → Forall hash_order_ok hos →
  adds_up start (pp_entry <$> (stable_sort (by_key (λ g, tz g.1)) (window groups seen) ≫= snd)) →
  ∃ m, clean_run merger_new (zip hos Js) m ∧
    ∀ ho, hash_order_ok ho → ∃ out, build ho m = Ok out ∧ assertions_hold A start (all_posts out).
Proof.
  intros H0 H1 H2 H3 H4 H5 HT Hf HJ HA Hl Hh E0. destruct (c108_paypal tz db ns groups ws tss seen ts hos X T Js) as (J & m & Hr & Hm & Hb); [done..|].
  exists m. split; [done|]. intros ho Hho. eexists. split; [by apply Hb|]. exact (pp_ruled_asserts tz db ns groups seen ts start X T A J H3 E0 HT Hr (HA J Hr)).
Qed.
Lemma c131_paypal_cmd E V tz db ns abbrs groups ss w tss w' seen ts X F rules T rs w2 ho um output A start :
  adds_up start (pp_entry <$> (stable_sort (by_key (λ g, tz g.1)) (window groups seen) ≫= snd)) →
  days (λ g, tz g.1) groups → hash_order_ok ho →
  imports E w (pp_run E V tz ns abbrs <$> ss) tss w' → Forall (pp_file V db groups w) ss →
  abbr_file V db w abbrs → f_read E (Path abbrs) = false → (∀ s, s ∈ ss → abbrs ≠ sf_out s) →
  (∀ s, s ∈ ss → f_read E (Path (sf_csv s)) = false ∧ f_read E (Path (sf_out s)) = false) →
  NoDup (sf_out <$> ss) → (∀ s s', s ∈ ss → s' ∈ ss → sf_csv s ≠ sf_out s') → Forall (prints_back E) tss →
  covers (sf_days <$> ss) seen → pp_statement tz db ns groups seen ts → NoDup (window groups seen).*1 → ¬ groups_collide (window groups seen) →
  (* the rules, and their runs *)
  one_file F → rules_loaded F rules T → leaves_fingerprints T →
  rulings E X F rules w' rs w2 → rr_in <$> rs = sf_out <$> ss → NoDup (rr_out <$> rs) →
  (* no run overwrites the input of a later one *)
  (∀ i k r r', rs !! i = Some r → rs !! k = Some r' → i < k → rr_out r ≠ rr_in r') →
  (∀ r, r ∈ rs → f_read E (Path (rr_out r)) = false) →
  (∀ ts J, ts ∈ tss → ruled X T (as_merged ts) J → reads_back E J) →
  (∀ J, ruled X T (as_merged ts) J → puts_on A (as_merged ts) J) →
  (∀ f, um = Some f → writable E f) → writable E output →
  ∃ out es, merge_cmd E ho (Path ∘ rr_out <$> rs) um output w2 = (es, Ok tt) ∧
    holds w2 (steps w2 es) output (e_print E (into_ledger ho out)) ∧ assertions_hold A start (all_posts out).
Proof.
  intros E0 K0 K1 K2 K3 K4 K5 K6 K7 K8 K9 K10 K11 K12 K13 K14 K15 K16 K17 K18 K19 K20 K21 K22 K23 K24 K25 K26. destruct (c108_paypal_cmd E V tz db ns abbrs groups ss w tss w' seen ts X F rules T rs w2 ho um output) as (J & es & Hr & H1 & H2 & _); [done..|].
  exists (stable_sort (by_key tp_date) J), es. split; [done|]. split; [done|].
  assert (is_Some (T !! s2l "start")) as HT by apply K16. exact (pp_ruled_asserts tz db ns groups seen ts start X T A J K12 E0 HT Hr (K24 J Hr)).
Qed.
Lemma c131_pdf P o name ds parts ws tss seen ts hos ens start :
  env_ok P → whole_days ds parts → Forall2 (pdf_statement P o name parts) ws tss →
  covers ws seen → pdf_statement P o name parts seen ts → (∀ t, t ∈ ts → str_ok (t_description t)) →
  ¬ pdf_collides ts (sequence None 0 (window parts seen)) →
  length hos = length ws → Forall hash_order_ok hos →
  Forall2 (pdf_entry P) (stable_sort (by_key group_date) (window parts seen)) ens → adds_up start ens →
  ∃ m, clean_run merger_new (zip hos (as_merged <$> tss)) m ∧
    ∀ ho, hash_order_ok ho → ∃ out, build ho m = Ok out ∧ assertions_hold (s2l "assets:unknown") start (all_posts out).
Proof.
  intros H0 H1 H2 H3 H4 H5 H6 Hl Hh E0 E1. destruct (pdf_overlaps P o name ds parts ws tss seen ts hos) as (m & Hm & Hb); [done..|].
  exists m. split; [done|]. intros ho Hho. eexists. split; [by apply Hb|]. exact (pdf_asserts P o name parts seen ts ens start H4 E0 E1).
Qed.
Lemma c131_pdf_ruled P o name ds parts ws tss seen ts hos X T Js A ens start :
  env_ok P → whole_days ds parts → Forall2 (pdf_statement P o name parts) ws tss →
  covers ws seen → pdf_statement P o name parts seen ts → (∀ t, t ∈ ts → str_ok (t_description t)) →
  ¬ pdf_collides ts (sequence None 0 (window parts seen)) →
  is_Some (T !! s2l "start") → leaves_fingerprints T → Forall2 (ruled X T) (as_merged <$> tss) Js →
  (∀ J, ruled X T (as_merged ts) J → puts_on A (as_merged ts) J) →
  length hos = length ws → Forall hash_order_ok hos →
  Forall2 (pdf_entry P) (stable_sort (by_key group_date) (window parts seen)) ens → adds_up start ens →
  ∃ m, clean_run merger_new (zip hos Js) m ∧
    ∀ ho, hash_order_ok ho → ∃ out, build ho m = Ok out ∧ assertions_hold A start (all_posts out).
Proof.
  intros H0 H1 H2 H3 H4 H5 H6 HT Hf HJ HA Hl Hh E0 E1. destruct (c108_pdf P o name ds parts ws tss seen ts hos X T Js) as (J & m & Hr & Hm & Hb); [done..|].
  exists m. split; [done|]. intros ho Hho. eexists. split; [by apply Hb|]. exact (pdf_ruled_asserts P o name parts seen ts ens start X T A J H4 E0 E1 HT Hr (HA J Hr)).
Qed.
Lemma c131_pdf_cmd E P o name ds parts ss w tss w' seen ts X F rules T rs w2 ho um output A ens start :
  Forall2 (pdf_entry P) (stable_sort (by_key group_date) (window parts seen)) ens → adds_up start ens →
  env_ok P → whole_days ds parts → hash_order_ok ho →
  imports E w (pdf_run P o <$> ss) tss w' → Forall (pdf_file_ok P name parts) ss →
  (∀ s, s ∈ ss → f_read E (Path (pf_out s)) = false) → NoDup (pf_out <$> ss) → Forall (prints_back E) tss →
  covers (pf_days <$> ss) seen → pdf_statement P o name parts seen ts → (∀ t, t ∈ ts → str_ok (t_description t)) →
  ¬ pdf_collides ts (sequence None 0 (window parts seen)) →
  (* the rules, and their runs *)
  one_file F → rules_loaded F rules T → leaves_fingerprints T →
  rulings E X F rules w' rs w2 → rr_in <$> rs = pf_out <$> ss → NoDup (rr_out <$> rs) →
  (* no run overwrites the input of a later one *)
  (∀ i k r r', rs !! i = Some r → rs !! k = Some r' → i < k → rr_out r ≠ rr_in r') →
  (∀ r, r ∈ rs → f_read E (Path (rr_out r)) = false) →
  (∀ ts J, ts ∈ tss → ruled X T (as_merged ts) J → reads_back E J) →
  (∀ J, ruled X T (as_merged ts) J → puts_on A (as_merged ts) J) →
  (∀ f, um = Some f → writable E f) → writable E output →
  ∃ out es, merge_cmd E ho (Path ∘ rr_out <$> rs) um output w2 = (es, Ok tt) ∧
    holds w2 (steps w2 es) output (e_print E (into_ledger ho out)) ∧ assertions_hold A start (all_posts out).
Proof.
  intros E0 E1 K0 K1 K2 K3 K4 K5 K6 K7 K8 K9 K10 K11 K12 K13 K14 K15 K16 K17 K18 K19 K20 K21 K22 K23. destruct (c108_pdf_cmd E P o name ds parts ss w tss w' seen ts X F rules T rs w2 ho um output) as (J & es & Hr & H1 & H2 & _); [done..|].
  exists (stable_sort (by_key tp_date) J), es. split; [done|]. split; [done|].
  assert (is_Some (T !! s2l "start")) as HT by apply K13. exact (pdf_ruled_asserts P o name parts seen ts ens start X T A J K9 E0 E1 HT Hr (K21 J Hr)).
Qed.

(** The statements merged into a journal that is kept over time are imports. *)
From Verif Require Import MergeClaims.
From stdpp Require Import list gmap.
From Verif Require Import Base Types SpecBase BaseProofs CommentModel MergeModel MergeLemmas FingerprintModel NwCsvModel TzModel PaypalModel
  CommentClaims FingerprintClaims ImportClaims OcrModel PdfModel PdfClaims PdfDaysClaims
  EditClaims WindowClaims StatementClaims MergeDays ImportDays PaypalDays PdfDays KeptClaims.
From Coq Require Import Lia.
Local Open Scope nat_scope.

Lemma pieces_stream (f : nat → list transaction_postings) seen ws :
  journal_ok (seen ≫= f) → (∀ i k a b, i ∈ seen → k ∈ seen → a ∈ f i → b ∈ f k → tp_date a = tp_date b ↔ i = k) → covers ws seen →
  ∃ stream, journal_ok (concat stream) ∧ days tp_date stream ∧ (λ w, w ≫= f) <$> ws = window stream <$> ws ∧ seen ≫= f = window stream seen.
Proof.
  intros Hok Hd Hcov.
  set (g := λ k, if decide (k ∈ seen) then f k else []). set (n := S (max_list seen)).
  assert (∀ w, (∀ k, k ∈ w → k ∈ seen) → window (g <$> seq 0 n) w = w ≫= f) as Hwin.
  { intros w Hw. rewrite window_of_fun.
    - apply bind_cond. intros k Hk. unfold g. by rewrite decide_True by auto.
    - intros k Hk%Hw. unfold n. pose proof (max_list_elem_of_le k seen Hk). lia. }
  assert (∀ w, w ∈ ws → ∀ k, k ∈ w → k ∈ seen) as Hsub by (intros w Hw k Hk; apply Hcov; eauto).
  exists (g <$> seq 0 n). split_and!.
  - assert (concat (g <$> seq 0 n) ≡ₚ seen ≫= f) as Hperm.
    { rewrite concat_fmap_bind. rewrite <- (bind_cond g f) by (intros k Hk; unfold g; by rewrite decide_True).
      assert (seq 0 n ≡ₚ seen ++ filter (.∉ seen) (seq 0 n)) as Hp.
      { rewrite (filter_split seen (seq 0 n)) at 1. f_equiv. apply NoDup_Permutation.
        - apply NoDup_filter, NoDup_seq.
        - apply Hcov.
        - intros k. rewrite elem_of_list_filter, elem_of_seq. unfold n. split; [naive_solver|]. intros Hk. split; [done|].
          pose proof (max_list_elem_of_le k seen Hk). lia. }
      rewrite Hp, bind_app. rewrite (bind_empty g (filter _ _)).
      - by rewrite app_nil_r.
      - intros k [Hk _]%elem_of_list_filter. unfold g. by rewrite decide_False. }
    destruct Hok as (H1 & H2 & H3). split_and!.
    + intros p. rewrite (all_posts_perm _ _ Hperm). apply H1.
    + rewrite (all_posts_perm _ _ Hperm). apply H2.
    + intros tp. rewrite Hperm. apply H3.
  - intros i k D E a b HD HE Ha Hb. rewrite list_lookup_fmap in HD, HE.
    destruct (seq 0 n !! i) as [i'|] eqn:Ei; [|done]. destruct (seq 0 n !! k) as [k'|] eqn:Ek; [|done].
    apply lookup_seq in Ei as [-> _], Ek as [-> _]. simpl in HD, HE. injection HD as <-. injection HE as <-.
    unfold g in Ha, Hb. destruct (decide (i ∈ seen)); [|by apply elem_of_nil in Ha]. destruct (decide (k ∈ seen)); [|by apply elem_of_nil in Hb].
    by apply Hd.
  - clear -Hwin Hsub. induction ws as [|w ws IH]; [done|]. rewrite !fmap_cons. f_equal.
    + symmetry. apply Hwin. apply Hsub. left.
    + apply IH. intros; eapply Hsub; [by right|done].
  - symmetry. by apply Hwin.
Qed.
Lemma kept_nationwide pd o name rows ws tss seen ts :
  parser_ok pd → days rec_date rows → Forall2 (nw_statement pd o name rows) ws tss →
  covers ws seen → nw_statement pd o name rows seen ts → ¬ statement_collides (window rows seen) →
  ∃ stream, journal_ok (concat stream) ∧ days tp_date stream ∧ as_merged <$> tss = window stream <$> ws ∧ Forall NoDup ws ∧
    as_merged ts = window stream seen.
Proof.
  intros Hpd Hd Hws Hcov Hts Hcol. destruct (nw_pieces pd o name rows ws tss seen ts) as (f & -> & -> & Hok & Hda & Hnd); try done.
  destruct (pieces_stream f seen ws Hok Hda Hcov) as (s & H1 & H2 & H3 & H4). eauto 10.
Qed.
Lemma kept_paypal tz db ns groups ws tss seen ts :
  days (λ g, tz g.1) groups → Forall2 (pp_statement tz db ns groups) ws tss →
  covers ws seen → pp_statement tz db ns groups seen ts → NoDup (window groups seen).*1 → ¬ groups_collide (window groups seen) →
  ∃ stream, journal_ok (concat stream) ∧ days tp_date stream ∧ as_merged <$> tss = window stream <$> ws ∧ Forall NoDup ws ∧
    as_merged ts = window stream seen.
Proof.
  intros Hd Hws Hcov Hts Htimes Hcol. destruct (pp_pieces tz db ns groups ws tss seen ts) as (f & -> & -> & Hok & Hda & Hnd); try done.
  destruct (pieces_stream f seen ws Hok Hda Hcov) as (s & H1 & H2 & H3 & H4). eauto 10.
Qed.
Lemma kept_pdf E o name ds parts ws tss seen ts :
  env_ok E → whole_days ds parts → Forall2 (pdf_statement E o name parts) ws tss →
  covers ws seen → pdf_statement E o name parts seen ts → (∀ t, t ∈ ts → str_ok (t_description t)) →
  ¬ pdf_collides ts (sequence None 0 (window parts seen)) →
  ∃ stream, journal_ok (concat stream) ∧ days tp_date stream ∧ as_merged <$> tss = window stream <$> ws ∧ Forall NoDup ws ∧
    as_merged ts = window stream seen.
Proof.
  intros HE Hd Hws Hcov Hst Htx Hcol. destruct (pdf_pieces E o name ds parts ws tss seen ts) as (f & -> & -> & Hok & Hda & Hnd); try done.
  destruct (pieces_stream f seen ws Hok Hda Hcov) as (s & H1 & H2 & H3 & H4). eauto 10.
Qed.

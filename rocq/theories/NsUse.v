(** The namespace of an import (C97), the name of a source (C26). *)
From stdpp Require Import gmap list pretty.
From Verif Require Import MergeClaims.
From Verif Require Import Base Types SpecBase CommentModel MergeModel CmdModel Sha1 FingerprintModel NwCsvModel TzModel PaypalModel OcrModel PdfModel ImporterModel
  BaseProofs CommentClaims FingerprintClaims ImportClaims NsClaims PdfClaims CmdClaims FingerprintProofs FingerprintLaws ImportProofs ImportRows ImportLaws ImportPaypal
  PdfFold PdfLaws CmdProofs CmdMerge CmdMerge2 NsUseClaims.
Local Open Scope nat_scope.

Lemma chosen_iff o name ns : make_namespace o name = Ok ns ↔ chosen o name ns.
Proof.
  split.
  - destruct o as [|s| |t]; cbn [make_namespace].
    + intros [= <-]. constructor.
    + intros [= <-]. constructor.
    + intros H. apply (f_equal (λ r, match r with Ok x => x | _ => [] end)) in H. cbn beta iota in H. subst ns. constructor.
    + destruct (t !! name) as [s|] eqn:E; [|done]. intros [= <-]. by constructor.
  - destruct 1 as [| | |t name s H]; [done..|]. cbn [make_namespace]. by rewrite H.
Qed.
Lemma hash_no_dash msg : 45%N ∉ into_base64 msg.
Proof. intros H%into_base64_part. revert H. by_compute. Qed.
Lemma legacy_in ns alg v msg : in_namespace ns (legacy_tag (fp_of alg v ns msg)).
Proof. exists [], (into_base64 msg). split; [done|]. split; [apply hash_no_dash|by left]. Qed.
Lemma tag_in ns alg msg : in_namespace ns (tag (fp_of alg 1 ns msg)).
Proof.
  exists (alg ++ s2l ".1."), (into_base64 msg). split; [|split; [apply hash_no_dash|right; by exists alg]].
  unfold tag. cbn [fp_of fp_algorithm fp_version fp_namespace fp_value]. change (show_Z 1) with (s2l "1").
  change (s2l ".1.") with (s2l "." ++ s2l "1" ++ s2l "."). change FINGERPRINT_PREFIX with (s2l "fp-"). by rewrite <-!app_assoc.
Qed.

Lemma csv_namespace E V pd ho o input w es ns ts : hash_order_ok ho →
  nw_importer E V pd ho o input w = (es, Ok (Import ns ts)) →
  ∃ text records name rs, read_file E input w = (es, Ok text) ∧ ce_nationwide V text = Some records ∧ statement_reads pd records name rs ∧
    chosen (nw_fp_ns o) name ns ∧
    (parser_ok pd → fields_ok records → ∀ p f, p ∈ all_posts (as_merged ts) → has_fp p f → in_namespace ns f).
Proof.
  intros Hho. unfold nw_importer, io_bind, io_of. destruct (read_file E input w) as [e0 [text| |]]; [|done..]. cbn [fst snd].
  destruct (ce_nationwide V text) as [records|] eqn:Ev; cbn [some_or]; [|done].
  destruct (nw_csv_import pd ho o records) as [[ns' ts']| |] eqn:Ei; [|done..]. unfold io_ret. cbn. rewrite app_nil_r. intros [= <- <- <-].
  pose proof Ei as (name & rs & Hs & Hns & _)%import_reads. exists text, records, name, rs.
  split; [done|]. split; [done|]. split; [done|]. split; [by apply chosen_iff|].
  intros Hpd Hf p f Hin [Hft Hp]. apply elem_of_list_lookup in Hin as [n Hn].
  destruct (import_post _ _ _ _ _ _ _ _ _ _ Hho Hpd Hf Ei Hs Hn) as (k & s & r & a & _ & _ & _ & _ & _ & _ & Ht). cbv zeta in Ht.
  apply (proj1 (Ht f)) in Hp. apply elem_of_app in Hp as [Hp|Hp]; [by apply extra_not_fp in Hp|].
  destruct r as [r|r]; cbn [row_fps] in Hp.
  - apply elem_of_list_singleton in Hp as ->. apply tag_in.
  - apply elem_of_app in Hp as [Hp| ->%elem_of_list_singleton]; [|apply tag_in].
    destruct (nw_legacy o); [|by apply elem_of_nil in Hp]. apply elem_of_list_singleton in Hp as ->. apply legacy_in.
Qed.
Lemma pdf_namespace X T ho o w es ns ts : hash_order_ok ho →
  pdf_importer X T ho o w = (es, Ok (Import ns ts)) →
  ∃ doc name, ocr_document T ho = Ok doc ∧ account_is doc name ∧ chosen o name ns ∧
    ∀ p f, p ∈ all_posts (as_merged ts) → has_fp p f → in_namespace ns f.
Proof.
  intros Hho. unfold pdf_importer, io_bind, io_of. destruct (ocr_document T ho) as [doc| |]; [|done..].
  destruct (pdf_import X ho o doc) as [[ns' ts']| |] eqn:Ei; [|done..]. unfold io_ret. cbn. intros [= _ <- <-].
  pose proof Ei as (name & ls & skip & gs & Hn & Hns & Hls & Hg & _)%c66_only. exists doc, name.
  split; [done|]. split; [done|]. split; [by apply chosen_iff|]. intros p f Hin [Hft Hpf]. apply elem_of_list_lookup in Hin as [n Hp].
  destruct (pdf_post _ _ _ _ _ _ _ _ _ _ _ Hho Ei Hls Hg Hp) as (k & s & g & m & b & t & _ & _ & _ & _ & _ & _ & _ & _ & Ht).
  apply (proj1 (Ht f)) in Hpf. apply elem_of_app in Hpf as [Hpf| ->%elem_of_list_singleton]; [by apply extra_not_fp in Hpf|]. apply legacy_in.
Qed.
Lemma paypal_namespace E V ho legacy tz ns input abbrs w es ns' ts : hash_order_ok ho →
  pp_importer E V ho legacy tz ns input abbrs w = (es, Ok (Import ns' ts)) →
  ns' = ns ∧ ∃ text w' es' rows, read_file E input w = (es', Ok text) ∧ w' = steps w es' ∧ ce_paypal V text = Some rows ∧
    (rows_ok rows → ∀ t p f, t ∈ ts → p ∈ t_postings t → has_fp (posting_internal_of p) f → in_namespace ns f).
Proof.
  intros Hho. unfold pp_importer, io_bind, io_of. destruct (read_file E input w) as [e0 [text| |]]; [|done..]. cbn [fst snd].
  destruct (read_file E abbrs (steps w e0)) as [e1 [abbr| |]]; [|done..].
  destruct (some_or EBadRecord (ce_abbr V abbr)) as [ar| |]; [|done..]. destruct (tz_from_rows ar) as [db| |]; [|done..].
  destruct (ce_paypal V text) as [rows|] eqn:Er; cbn [some_or]; [|done].
  destruct (pp_import ho legacy tz db ns rows) as [ts'| |] eqn:Ei; [|done..]. unfold io_ret. cbn. intros [= _ <- <-].
  split; [done|]. exists text, (steps w e0), e0, rows. split; [done|]. split; [done|]. split; [done|].
  intros Hok t p f Hit Hip Hf. apply elem_of_list_lookup in Hit as [k Hk]. apply elem_of_list_lookup in Hip as [n Hn].
  pose proof Ei as (_ & Hz & _)%pp_import_spec.
  destruct (pp_post_fps _ _ _ _ _ _ _ _ _ _ _ _ Hho Hok Ei (row_groups_runs db ns rows Hz) Hk Hn) as (ti & g & i & s & v & _ & _ & _ & _ & _ & _ & Hfp).
  apply Hfp in Hf. unfold pp_fps in Hf. apply elem_of_app in Hf as [Hf|Hf].
  - destruct s; [apply elem_of_list_singleton in Hf as ->; apply tag_in|by apply elem_of_nil in Hf].
  - destruct legacy; [apply elem_of_list_singleton in Hf as ->; apply legacy_in|by apply elem_of_nil in Hf].
Qed.

(** * Sources *)
Lemma sourced_named E f tp : named_source E f tp (sourced (filespec_display E f) tp).
Proof.
  unfold named_source, sourced, source_tag at 1. cbn [tp_trn ti_comment value_tags]. rewrite lookup_insert. unfold source_of.
  destruct (source_tag tp) as [s|]; [done|]. by destruct f.
Qed.
Lemma c26_named E ho f w es sets : hash_order_ok ho → read_sources E ho f w = (es, Ok sets) →
  ∃ l tps, reads E w f l (steps w es) ∧ mjoin sets ≡ₚ tps ∧ Forall2 (named_source E f) (transaction_postings_of <$> ledger_trns l) tps.
Proof.
  intros Hho (l & Hl & _ & _ & Hp)%c26; [|done]. exists l, (sourced (filespec_display E f) <$> (transaction_postings_of <$> ledger_trns l)).
  split; [done|]. split; [done|]. apply Forall2_fmap_r, Forall_Forall2_diag, Forall_forall. intros tp _. apply sourced_named.
Qed.

(** Journals of several accounts balance (C132). *)
From Verif Require Import MergeClaims.
From Verif Require Import Base Types SpecBase BaseProofs MergeLemmas CommentModel MergeModel FingerprintModel NwCsvModel TzModel PaypalModel OcrModel PdfModel
  FingerprintClaims ImportClaims ImportLaws ImportPaypal EditClaims WindowClaims StatementClaims PdfClaims PdfLaws PdfDaysClaims NsUseClaims RulesModel RulesClaims PipeClaims
  AssertClaims BooksClaims AccountsClaims Accounts Accounts2.
From Coq Require Import QArith.
Local Open Scope nat_scope.

Lemma value_read c p : post_value c (posting_internal_of p) = posting_value c p.
Proof. reflexivity. Qed.
Lemma balanced_read t : balanced t → in_balance (transaction_postings_of t).
Proof.
  intros [_ H] c. specialize (H c). revert H. cbn [tp_posts transaction_postings_of].
  assert (posts_value c (posting_internal_of <$> t_postings t) = sum_value c (t_postings t)) as E; [|by rewrite <- E].
  generalize (t_postings t). intros l. induction l as [|p l IH]; [done|]. rewrite fmap_cons. cbn [posts_value sum_value foldr].
  unfold posts_value, sum_value in IH. by rewrite IH.
Qed.
Lemma kept_in_balance tp tp' : tp_kept tp tp' → in_balance tp → in_balance tp'.
Proof.
  intros [_ HF] H c. rewrite <- (H c). clear H. induction HF as [|p p' l l' Hp HF IH]; [reflexivity|]. cbn [posts_value foldr].
  unfold posts_value in IH. rewrite IH. assert (post_value c p' = post_value c p) as ->; [|reflexivity]. unfold post_value. by rewrite (pk_amount _ _ Hp).
Qed.
Lemma statement_balanced a w ts t : statement_of a w ts → t ∈ ts → balanced t.
Proof.
  destruct a as [pd o name rows|tz db ns groups|P o name ds parts]; cbn [statement_of].
  - intros (_ & ho & records & ns & _ & _ & _ & Hi). by eapply c45_nw.
  - intros (_ & ho & rows & _ & _ & _ & Hi). by eapply c45_pp.
  - intros (_ & ho & doc & ns & ls & skip & gs & _ & _ & _ & _ & _ & Hi). by eapply pdf_balanced.
Qed.
Lemma own_journal_in_balance h J tp : history_ok h → own_journal h J → tp ∈ J → in_balance tp.
Proof.
  intros [_ _ HR Hst _] HJ Htp. apply treated_kept in HJ; [|done]. apply elem_of_list_lookup in Htp as [i Hi].
  destruct (Forall2_lookup_r _ _ _ _ _ HJ Hi) as (tp0 & H0 & Hk). apply (kept_in_balance tp0); [done|].
  apply elem_of_list_lookup_2 in H0. unfold as_merged in H0. apply elem_of_list_fmap in H0 as (t & -> & Ht).
  apply balanced_read. by eapply statement_balanced.
Qed.
Lemma all_in_balance hs Js out tp : Forall history_ok hs → Forall2 own_journal hs Js → all_in Js out → tp ∈ out → in_balance tp.
Proof.
  intros Hhs HJs [Hp _ _] Htp. rewrite Hp in Htp. apply elem_of_list_join in Htp as (J & Htp & [i Hi]%elem_of_list_lookup).
  destruct (Forall2_lookup_r _ _ _ _ _ HJs Hi) as (h & Hh & HJ). eapply own_journal_in_balance; [|done..]. by eapply Forall_lookup_1.
Qed.
Lemma c132_in_balance hs inputs hos : Forall history_ok hs → NoDup (h_namespace <$> hs) →
  Forall (input_of hs) inputs → (∀ n h, hs !! n = Some h → covers (statements inputs n) (h_days h)) → not_alike inputs →
  length hos = length inputs → Forall hash_order_ok hos →
  ∃ m out, clean_run merger_new (zip hos (in_trns <$> inputs)) m ∧ (∀ ho, hash_order_ok ho → build ho m = Ok out) ∧
    ∀ tp, tp ∈ out → in_balance tp.
Proof.
  intros Hhs Hnd Hin Hcov Hap Hlen Hhos. destruct (c132 hs inputs hos Hhs Hnd Hin Hcov Hap Hlen Hhos) as (Js & m & out & HJs & Hrun & Hb & Hout).
  exists m, out. split; [done|]. split; [done|]. intros tp. by apply (all_in_balance hs Js).
Qed.

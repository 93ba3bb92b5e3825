(** C134: amounts of PDF statements. *)
From Verif Require Import MergeClaims.
From Verif Require Import Base Types SpecBase CommentModel MergeModel Sha1 FingerprintModel NwCsvModel PaypalModel
  CommentClaims FingerprintClaims ImportClaims BaseProofs CommentExamples OcrModel PdfModel PdfClaims PdfLaws PdfExamples
  PdfMoneyClaims PdfMoney PdfMoneyExamples.
From Coq Require Import Lia QArith.
Local Open Scope nat_scope.

(** The postings and the balance are the numbers written. *)
Theorem C134_amounts E ho o doc ns ts ls skip gs k g t : reads_plain E → pdf_import E ho o doc = Ok (ns, ts) →
  statement_lines E doc ls → grouped ls skip gs → gs !! k = Some g → ts !! k = Some t →
  ∃ own peer, t_postings t = [own; peer] ∧
    (∀ s q, tl_receipt g.1 = Some s → money_text s q → posts_pounds own q ∧ posts_pounds peer (- q)) ∧
    (∀ s q, tl_payment g.1 = Some s → money_text s q → posts_pounds own (- q) ∧ posts_pounds peer q) ∧
    (p_balance own = None ↔ omap tl_balance (group_lines g) = []) ∧
    ∀ s q, last (omap tl_balance (group_lines g)) = Some s → money_text s q → ∃ b, p_balance own = Some (BalAmount b) ∧ pounds b q.
Proof. exact (c134_amounts E ho o doc ns ts ls skip gs k g t). Qed.
Print Assumptions C134_amounts.
(** No such text is refused. *)
Theorem C134_accepts E ho o doc name ns ls skip gs : reads_plain E → account_is doc name → make_namespace o name = Ok ns → statement_lines E doc ls →
  grouped ls skip gs → fp_part ns → (∀ g, g ∈ gs → readable_group E g) →
  (∀ m, m ∈ sequence None 0 gs → (Z.of_nat m < 2147483647)%Z) → ∃ ts, pdf_import E ho o doc = Ok (ns, ts).
Proof. exact (c134_accepts E ho o doc name ns ls skip gs). Qed.
Print Assumptions C134_accepts.
(** A text denotes one number. *)
Theorem C134_one_number s q q' : money_text s q → money_text s q' → (q == q')%Q.
Proof. exact (money_unique s q q'). Qed.
Print Assumptions C134_one_number.
(** Reading digit by digit is such a reader; with it the statement of C66_ex, with the
    receipt "1,250.00", is imported. *)
Example C134_ex : reads_plain pm_env ∧
  pdf_import pm_env default_order ex_cur (ex_doc false) = Ok (s2l "cur", pdf_trns (ex_doc false)) ∧
  statement_lines pm_env (ex_doc false) (pdf_lines (ex_doc false)) ∧
  grouped (pdf_lines (ex_doc false)) (group_up (pdf_lines (ex_doc false))).1 (pdf_groups (ex_doc false)) ∧
  (tl_receipt <$> (pdf_groups (ex_doc false)).*1) = [Some (s2l "1,250.00"); None; None] ∧
  (∃ q, money_text (s2l "1,250.00") q ∧ (q == 1250)%Q) ∧
  (∀ g, g ∈ pdf_groups (ex_doc false) → readable_group pm_env g).
Proof.
  split; [apply plain_env_reads|]. split; [exact (pm_import false)|]. split; [exact (pm_lines false)|]. split; [apply group_up_spec|].
  split; [vm_compute; reflexivity|]. split; [exact ex_money|]. exact pm_readable.
Qed.

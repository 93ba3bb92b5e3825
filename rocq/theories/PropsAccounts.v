(** C132: statements of several accounts in one journal. *)
From Verif Require Import MergeClaims.
From Verif Require Import Base Types SpecBase BaseProofs CommentModel MergeModel CmdModel FingerprintModel NwCsvModel TzModel PaypalModel OcrModel PdfModel
  CommentClaims FingerprintClaims CmdClaims ImportClaims EditClaims WindowClaims StatementClaims PdfClaims PdfDaysClaims NsUseClaims
  RulesModel RulesClaims HeaderClaims PipeClaims CommentExamples MergeExamples ImportExamples AssertClaims AssertExamples
  BooksClaims AccountsClaims Accounts Accounts2 Accounts3 AccountsExamples.
From Coq Require Import QArith.
Local Open Scope nat_scope.

(** Accounts imported with different namespaces, each from any number of overlapping
    statements with whole days, the files given to merge in any order.  If payments of
    different accounts on the same day do not look alike, each payment is in the
    journal once; the journal is by date, and has the payments of each account in the
    order in which that account's journal alone would have them. *)
Theorem C132_journal hs inputs hos : Forall history_ok hs → NoDup (h_namespace <$> hs) →
  Forall (input_of hs) inputs → (∀ n h, hs !! n = Some h → covers (statements inputs n) (h_days h)) → not_alike inputs →
  length hos = length inputs → Forall hash_order_ok hos →
  ∃ Js m out, Forall2 own_journal hs Js ∧ clean_run merger_new (zip hos (in_trns <$> inputs)) m ∧
    (∀ ho, hash_order_ok ho → build ho m = Ok out) ∧ all_in Js out.
Proof. exact (c132 hs inputs hos). Qed.
Print Assumptions C132_journal.
(** The merge command. *)
Theorem C132_command E ho um output w files hs inputs : hash_order_ok ho → Forall history_ok hs → NoDup (h_namespace <$> hs) →
  Forall (input_of hs) inputs → (∀ n h, hs !! n = Some h → covers (statements inputs n) (h_days h)) → not_alike inputs →
  journals E w files (in_trns <$> inputs) w → (∀ f, um = Some f → writable E f) → writable E output →
  ∃ Js out es, Forall2 own_journal hs Js ∧ all_in Js out ∧ merge_cmd E ho files um output w = (es, Ok tt) ∧
    holds w (steps w es) output (e_print E (into_ledger ho out)) ∧ ∀ p, Path p ≠ output → same_file w (steps w es) p.
Proof. exact (c132_command E ho um output w files hs inputs). Qed.
Print Assumptions C132_command.
(** The balances that the bank states for one of the accounts hold in the journal of
    them all (C131), if only the postings of that account are on [A]. *)
Theorem C132_balances hs inputs hos n h A es start : Forall history_ok hs → NoDup (h_namespace <$> hs) →
  Forall (input_of hs) inputs → (∀ n h, hs !! n = Some h → covers (statements inputs n) (h_days h)) → not_alike inputs →
  length hos = length inputs → Forall hash_order_ok hos →
  hs !! n = Some h → bank_says (h_account h) (h_days h) es → adds_up start es →
  (∀ J, own_journal h J → puts_on A (as_merged (h_all h)) J) →
  (∀ i h' J p, i ≠ n → hs !! i = Some h' → own_journal h' J → p ∈ all_posts J → p_account (pi_raw p) ≠ A) →
  ∃ m out, clean_run merger_new (zip hos (in_trns <$> inputs)) m ∧ (∀ ho, hash_order_ok ho → build ho m = Ok out) ∧
    assertions_hold A start (all_posts out).
Proof. exact (c132_balances hs inputs hos n h A es start). Qed.
Print Assumptions C132_balances.
(** Each transaction of that journal balances (C130). *)
Theorem C132_in_balance hs inputs hos : Forall history_ok hs → NoDup (h_namespace <$> hs) →
  Forall (input_of hs) inputs → (∀ n h, hs !! n = Some h → covers (statements inputs n) (h_days h)) → not_alike inputs →
  length hos = length inputs → Forall hash_order_ok hos →
  ∃ m out, clean_run merger_new (zip hos (in_trns <$> inputs)) m ∧ (∀ ho, hash_order_ok ho → build ho m = Ok out) ∧
    ∀ tp, tp ∈ out → in_balance tp.
Proof. exact (c132_in_balance hs inputs hos). Qed.
Print Assumptions C132_in_balance.

(** A current account with rules and a savings account without, two overlapping
    statements of each, payments of both on 2 September. *)
Example C132_ex :
  Forall history_ok ac_hs ∧ NoDup (h_namespace <$> ac_hs) ∧ Forall (input_of ac_hs) ac_inputs ∧
  (∀ n h, ac_hs !! n = Some h → covers (statements ac_inputs n) (h_days h)) ∧ not_alike ac_inputs ∧
  bank_says (h_account ac_cur) (h_days ac_cur) ab_entries ∧ adds_up ab_start ab_entries ∧
  (∀ J, own_journal ac_cur J → puts_on (s2l "assets:current") (as_merged (h_all ac_cur)) J) ∧
  (∀ i h' J p, i ≠ 0 → ac_hs !! i = Some h' → own_journal h' J → p ∈ all_posts J → p_account (pi_raw p) ≠ s2l "assets:current") ∧
  rmap (fmap (λ tp, (tp_date tp).2)) (build reverse_order ac_m) = Ok [1; 1; 2; 2; 3; 4]%N.
Proof.
  split; [apply Forall_cons; split; [exact ac_cur_ok|apply Forall_singleton, ac_sav_ok; left]|].
  split; [by_compute|]. split; [exact ac_inputs_ok|]. split; [exact ac_covers|]. split; [exact ac_not_alike|].
  split; [exact ab_says|]. split; [exact ab_adds_up|]. split; [exact ac_puts|]. split; [exact ac_others|]. vm_compute. reflexivity.
Qed.
(** Payments that look alike are mixed up, without a report: a bus fare paid from
    savings is as much as the tea paid from the current account on the same day, and
    the journal has one transaction for both, out of balance. *)
Theorem C132_alike_needed :
  Forall history_ok al_hs ∧ NoDup (h_namespace <$> al_hs) ∧ Forall (input_of al_hs) al_inputs ∧
  (∀ n h, al_hs !! n = Some h → covers (statements al_inputs n) (h_days h)) ∧
  (∀ x tp, x ∈ al_inputs → tp ∈ in_trns x → (posts_value GBP (tp_posts tp) == 0)%Q) ∧
  (length <$> (in_trns <$> al_inputs)) = [4; 1] ∧
  ∃ m out tp, clean_run merger_new (zip [default_order; default_order] (in_trns <$> al_inputs)) m ∧
    build default_order m = Ok out ∧ length out = 4 ∧ tp ∈ out ∧ length (tp_posts tp) = 3 ∧ ¬ (posts_value GBP (tp_posts tp) == 0)%Q.
Proof.
  split; [apply Forall_cons; split; [exact ac_cur_ok|apply Forall_singleton, ac_sav_ok; right; right; left]|].
  split; [by_compute|]. split; [exact al_inputs_ok|]. split; [exact al_covers|]. split; [exact al_balance|]. split; [vm_compute; reflexivity|].
  exists al_m, al_out, al_tea. split; [exact al_run|]. split; [exact al_built|]. split; [vm_compute; reflexivity|]. split; [exact al_tea_in|].
  split; [vm_compute; reflexivity|]. vm_compute. discriminate.
Qed.
Print Assumptions C132_alike_needed.

(** C133: a script that imports statements of several accounts, applies the rules of
    each account and merges everything. *)
From Verif Require Import MergeClaims.
From stdpp Require Import gmap list.
From Verif Require Import Base Types SpecBase BaseProofs CommentModel MergeModel CmdModel FingerprintModel NwCsvModel TzModel PaypalModel OcrModel PdfModel
  CommentClaims CmdClaims ImportClaims EditClaims RulesModel MergeExamples CommentExamples RetryClaims ScriptClaims BooksClaims AssertClaims AssertExamples
  AccountsClaims AccountsExamples YearClaims Year Year2 YearExamples.
From Coq Require Import QArith.
Local Open Scope nat_scope.

(** The statements of each account are in files and cover its days, in any order;
    payments of different accounts on the same day do not look alike.  If importing
    and applying rules end well, so does the merge; the journal has each payment of
    each account once, as the rules want it, by date, and each transaction in it
    balances.  Files that the script is not told to write are left alone. *)
Theorem C133_journal E V Rs ho hs jobs um target w es :
  hash_order_ok ho → Forall history_ok hs → NoDup (h_namespace <$> hs) → accounts_not_alike hs → rules_there Rs hs →
  Forall (λ j, ∃ h, job_ok E V ho w hs j h) jobs → jobs_apart hs jobs → all_days hs jobs →
  script E ho (year_script V Rs hs jobs) w = (es, Ok tt) → (∀ f, um = Some f → writable E f) → writable E (Path target) →
  ∃ Js out es', Forall2 own_journal hs Js ∧ all_in Js out ∧ (∀ tp, tp ∈ out → in_balance tp) ∧
    script E ho (year_script V Rs hs jobs ++ [year_merge hs jobs um target]) w = (es', Ok tt) ∧
    w_files (steps w es') !! target = Some (e_print E (into_ledger ho out)) ∧
    ∀ p, p ≠ target → (∀ j h, j ∈ jobs → hs !! jb_account j = Some h → p ∉ job_writes h j) → same_file w (steps w es') p.
Proof. exact (c133 E V Rs ho hs jobs um target w es). Qed.
Print Assumptions C133_journal.
(** Whatever parts of the script were tried before, and wherever they were stopped,
    running it gives that journal. *)
Theorem C133_again E V Rs ho hs jobs um target w es w' :
  hash_order_ok ho → Forall history_ok hs → NoDup (h_namespace <$> hs) → accounts_not_alike hs → rules_there Rs hs →
  Forall (λ j, ∃ h, job_ok E V ho w hs j h) jobs → jobs_apart hs jobs → all_days hs jobs →
  (∀ j h p, j ∈ jobs → hs !! jb_account j = Some h → p ∈ job_reads (h_account h) j → p ≠ target ∧ um ≠ Some (Path p)) →
  script E ho (year_script V Rs hs jobs) w = (es, Ok tt) → (∀ f, um = Some f → writable E f) → writable E (Path target) →
  tried (year_script V Rs hs jobs ++ [year_merge hs jobs um target]) w w' →
  ∃ Js out es', Forall2 own_journal hs Js ∧ all_in Js out ∧ (∀ tp, tp ∈ out → in_balance tp) ∧
    script E ho (year_script V Rs hs jobs ++ [year_merge hs jobs um target]) w' = (es', Ok tt) ∧
    w_files (steps w' es') !! target = Some (e_print E (into_ledger ho out)).
Proof. exact (c133_again E V Rs ho hs jobs um target w es w'). Qed.
Print Assumptions C133_again.
(** In such a journal the balances hold that the bank of an account states (C131), if
    only postings of that account are on [A]. *)
Theorem C133_balances hs Js out n h A es start : Forall history_ok hs → Forall2 own_journal hs Js → all_in Js out →
  hs !! n = Some h → bank_says (h_account h) (h_days h) es → adds_up start es →
  (∀ J, own_journal h J → puts_on A (as_merged (h_all h)) J) →
  (∀ i h' J p, i ≠ n → hs !! i = Some h' → own_journal h' J → p ∈ all_posts J → p_account (pi_raw p) ≠ A) →
  assertions_hold A start (all_posts out).
Proof. exact (all_in_asserts hs Js out n h A es start). Qed.
Print Assumptions C133_balances.

(** Two statements each of a current account, with rules, and of a savings account;
    the script was tried before and stopped after five events. *)
Definition yr_script : list command := year_script yr_V yr_Rs ac_hs yr_jobs.
Definition yr_merge : command := year_merge ac_hs yr_jobs None (s2l "journal").
Definition yr_w2 : world := steps yr_w (take 5 (script yr_E reverse_order (yr_script ++ [yr_merge]) yr_w).1).
Example C133_ex :
  Forall history_ok ac_hs ∧ NoDup (h_namespace <$> ac_hs) ∧ accounts_not_alike ac_hs ∧ rules_there yr_Rs ac_hs ∧
  Forall (λ j, ∃ h, job_ok yr_E yr_V default_order yr_w ac_hs j h) yr_jobs ∧ jobs_apart ac_hs yr_jobs ∧ all_days ac_hs yr_jobs ∧
  (∀ j h p, j ∈ yr_jobs → ac_hs !! jb_account j = Some h → p ∈ job_reads (h_account h) j → p ≠ s2l "journal") ∧
  (script yr_E default_order yr_script yr_w).2 = Ok tt ∧ writable yr_E (Path (s2l "journal")) ∧
  tried (yr_script ++ [yr_merge]) yr_w yr_w2 ∧ w_files yr_w2 !! s2l "ra" = Some (s2l "RA") ∧ w_files yr_w2 !! s2l "b" = None ∧
  (let es := (script yr_E default_order (yr_script ++ [yr_merge]) yr_w).1 in w_files (steps yr_w es) !! s2l "journal" = Some (s2l "ALL")) ∧
  length yr_out = 6.
Proof.
  split; [apply Forall_cons; split; [exact ac_cur_ok|apply Forall_singleton, ac_sav_ok; left]|].
  split; [by_compute|]. split; [exact yr_not_alike|]. split; [exact yr_rules|]. split; [exact yr_ok|]. split; [exact yr_apart|]. split; [exact yr_all_days|].
  split.
  { intros j h p Hj Hh Hp E. assert (p ∈ [jb_csv j]) as Hp'.
    { destruct (jb_account j) as [|[|n]]; [injection Hh as <-; exact Hp..|discriminate Hh]. }
    apply elem_of_list_singleton in Hp' as ->. clear Hh Hp.
    repeat (apply elem_of_cons in Hj as [->|Hj]; [revert E; vm_compute; discriminate|]). by apply elem_of_nil in Hj. }
  split; [exact yr_runs|]. split; [split; reflexivity|]. split.
  { eapply (tried_again _ _ yr_w _ yr_E reverse_order (yr_script ++ [yr_merge])); [apply tried_not|done|apply surjective_pairing|].
    exists (take 5 (script yr_E reverse_order (yr_script ++ [yr_merge]) yr_w).1), (drop 5 (script yr_E reverse_order (yr_script ++ [yr_merge]) yr_w).1).
    split; [by rewrite take_drop|done]. }
  split; [vm_compute; reflexivity|]. split; [vm_compute; reflexivity|]. split; [exact yr_result|]. vm_compute. reflexivity.
Qed.

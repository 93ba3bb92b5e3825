(** Running the script for several accounts again (C133). *)
From Verif Require Import MergeClaims.
From stdpp Require Import gmap list.
From Verif Require Import Base Types SpecBase BaseProofs CommentModel MergeModel CmdModel FingerprintModel NwCsvModel TzModel PaypalModel OcrModel PdfModel
  CmdClaims RulesModel RetryClaims ScriptClaims Script BooksClaims AccountsClaims YearClaims Year.
Local Open Scope nat_scope.

Lemma bind_split {A B} (f : A → list B) (l : list A) a c b : l ≫= f = a ++ c :: b →
  ∃ l1 x l2 a' b', l = l1 ++ x :: l2 ∧ f x = a' ++ c :: b' ∧ a = (l1 ≫= f) ++ a'.
Proof.
  revert a. induction l as [|y l IH]; intros a H; [by destruct a|]. rewrite bind_cons in H.
  assert ((∃ b', f y = a ++ c :: b') ∨ ∃ a2, a = f y ++ a2 ∧ l ≫= f = a2 ++ c :: b) as [[b' E]|(a2 & -> & E)].
  { revert a H. generalize (f y). intros k. induction k as [|z k IHk]; intros a H; [right; by exists a|].
    destruct a as [|z' a]; cbn in H; injection H as -> H; [left; by exists k|]. destruct (IHk a H) as [[b' ->]|(a2 & -> & E)]; [left; by exists b'|right; by exists a2]. }
  - exists [], y, l, a, b'. done.
  - destruct (IH a2 E) as (l1 & x & l2 & a' & b' & -> & Ex & ->). exists (y :: l1), x, l2, a', b'. rewrite bind_cons, app_assoc. done.
Qed.
Lemma job_may_write V Rs hs j h d p : hs !! jb_account j = Some h → d ∈ job_commands V Rs hs j → may_write d p → p ∈ job_writes h j.
Proof.
  unfold job_commands, job_writes. intros ->. intros [->|Hd]%elem_of_cons Hw.
  - apply elem_of_cons. left. assert (∃ ns, placed (Path (jb_imported j)) false ns (Path p)) as [ns Hp] by (by destruct (h_account h)). cbn in Hp. by injection Hp.
  - unfold rules_commands in Hd. destruct (h_rules h) as [[X T]|]; [|by apply elem_of_nil in Hd]. apply elem_of_list_singleton in Hd as ->.
    cbn in Hw. injection Hw as ->. right. left.
Qed.
Lemma import_reads_what V a j f : f ∈ ScriptClaims.reads (import_command V a j) → ∃ p, f = Path p ∧ p ∈ job_reads a j.
Proof.
  destruct a; cbn [import_command ScriptClaims.reads job_reads].
  - intros ->%elem_of_list_singleton. eexists. split; [done|]. left.
  - intros [->|H]%elem_of_cons; [|apply elem_of_list_singleton in H as ->]; (eexists; split; [done|]); [left|right; left].
  - by intros H%elem_of_nil.
Qed.
Lemma import_must_write V a j : must_write (import_command V a j) (jb_imported j).
Proof. by destruct a. Qed.
Lemma result_written V Rs hs j h : hs !! jb_account j = Some h → ∃ d, d ∈ job_commands V Rs hs j ∧ must_write d (job_result hs j).
Proof.
  unfold job_commands, job_result, rules_commands. intros ->. destruct (h_rules h) as [[X T]|].
  - eexists. split; [right; left|]. done.
  - eexists. split; [left|]. apply import_must_write.
Qed.
Lemma year_in_order V Rs hs jobs um target : (∀ j, j ∈ jobs → is_Some (hs !! jb_account j)) → jobs_apart hs jobs →
  (∀ j h p, j ∈ jobs → hs !! jb_account j = Some h → p ∈ job_reads (h_account h) j → p ≠ target ∧ um ≠ Some (Path p)) →
  in_order (year_script V Rs hs jobs ++ [year_merge hs jobs um target]).
Proof.
  intros Hsome Hap Hsafe a c b f E Hf.
  assert (∀ j h p, j ∈ jobs → hs !! jb_account j = Some h → p ∈ job_reads (h_account h) j →
    ∀ d, d ∈ year_script V Rs hs jobs ++ [year_merge hs jobs um target] → ¬ may_write d p) as Hnone.
  { intros j h p Hj Hh Hp d [Hd|Hd]%elem_of_app Hw.
    - unfold year_script in Hd. apply elem_of_list_bind in Hd as (j' & Hd & Hj'). destruct (Hsome j' Hj') as [h' Hh'].
      pose proof (job_may_write V Rs hs j' h' d p Hh' Hd Hw) as Hw'. apply elem_of_list_lookup in Hj as [i Hi], Hj' as [k Hk].
      by destruct (Hap k i j' j h' h p Hk Hi Hh' Hh Hw').
    - apply elem_of_list_singleton in Hd as ->. destruct (Hsafe j h p Hj Hh Hp) as [H1 H2]. cbn in Hw. destruct Hw as [Hw|Hw]; [done|]. congruence. }
  destruct b as [|b0 b _] using rev_ind.
  - (* the merge *)
    apply app_inj_2 in E as [<- [= <-]]; [|done]. cbn [year_merge ScriptClaims.reads] in Hf. apply elem_of_list_fmap in Hf as (j & -> & Hj).
    exists (job_result hs j). split; [done|]. left. destruct (Hsome j Hj) as [h Hh]. destruct (result_written V Rs hs j h Hh) as (d & Hd & Hw).
    exists d. split; [|done]. unfold year_script. apply elem_of_list_bind. by exists j.
  - rewrite app_comm_cons, app_assoc in E. apply app_inj_2 in E as [E _]; [|done]. unfold year_script in E.
    apply bind_split in E as (l1 & j & l2 & a' & b' & -> & Ej & ->). destruct (Hsome j) as [h Hh]; [apply elem_of_app; right; left|].
    unfold job_commands in Ej. rewrite Hh in Ej. destruct a' as [|d a']; cbn in Ej; injection Ej as <- Ej.
    + destruct (import_reads_what _ _ _ _ Hf) as (p & -> & Hp). exists p. split; [done|]. right. apply (Hnone j h p); [|done|done].
      apply elem_of_app. right. left.
    + unfold rules_commands in Ej. destruct (h_rules h) as [[X T]|]; [|by destruct a'].
      destruct a' as [|d' a']; [|destruct a'; discriminate Ej]. injection Ej as <- _. cbn [ScriptClaims.reads] in Hf. apply elem_of_list_singleton in Hf as ->.
      exists (jb_imported j). split; [done|]. left. eexists. split; [apply elem_of_app; right; left|]. apply import_must_write.
Qed.
Lemma c133_again E V Rs ho hs jobs um target w es w' :
  hash_order_ok ho → Forall history_ok hs → NoDup (h_namespace <$> hs) → accounts_not_alike hs → rules_there Rs hs →
  Forall (λ j, ∃ h, job_ok E V ho w hs j h) jobs → jobs_apart hs jobs → all_days hs jobs →
  (∀ j h p, j ∈ jobs → hs !! jb_account j = Some h → p ∈ job_reads (h_account h) j → p ≠ target ∧ um ≠ Some (Path p)) →
  script E ho (year_script V Rs hs jobs) w = (es, Ok tt) → (∀ f, um = Some f → writable E f) → writable E (Path target) →
  tried (year_script V Rs hs jobs ++ [year_merge hs jobs um target]) w w' →
  ∃ Js out es', Forall2 own_journal hs Js ∧ all_in Js out ∧ (∀ tp, tp ∈ out → in_balance tp) ∧
    script E ho (year_script V Rs hs jobs ++ [year_merge hs jobs um target]) w' = (es', Ok tt) ∧
    w_files (steps w' es') !! target = Some (e_print E (into_ledger ho out)).
Proof.
  intros Hho Hhs Hnd Hna HRs Hj Hap Hall Hsafe Hs Hum Ht Htr.
  destruct (c133 E V Rs ho hs jobs um target w es Hho Hhs Hnd Hna HRs Hj Hap Hall Hs Hum Ht) as (Js & out & es' & H1 & H2 & H3 & H4 & H5 & _).
  exists Js, out, es'. split; [done|]. split; [done|]. split; [done|].
  destruct (script_retry E ho _ w w' es' (year_in_order V Rs hs jobs um target
    (λ j Hjj, let '(ex_intro _ h Ho) := proj1 (Forall_forall _ _) Hj j Hjj in ex_intro _ h (jo_account _ _ _ _ _ _ _ Ho)) Hap Hsafe) Htr H4) as [R1 R2].
  split; [done|]. rewrite (R2 target); [done|]. left. apply script_app in H4 as (e1 & e2 & _ & H4 & ->). apply script_one in H4.
  apply elem_of_app. right. by eapply execute_creates.
Qed.

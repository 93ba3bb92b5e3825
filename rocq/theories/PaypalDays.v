(** Overlapping PayPal statements. *)
From Verif Require Import MergeClaims.
From Verif Require Import Base Types SpecBase BaseProofs StrProofs CommentModel CommentClaims CommentLaws MergeModel Sha1 FingerprintModel NwCsvModel PaypalModel TzModel
  FingerprintClaims FingerprintProofs FingerprintLaws ImportClaims ImportProofs ImportRows ImportPaypal.
From Verif Require Import MergeProofs MergeLemmas MergeLaws4 EditClaims WindowClaims MergeDays StatementClaims ImportDays.
From Coq Require Import Lia.
Local Open Scope nat_scope.

Lemma forall2_window {A B} (R : A → B → Prop) (parts : list (list A)) w (ts : list B) : NoDup w → Forall2 R (window parts w) ts →
  ∃ f, (∀ k, k ∈ w → Forall2 R (default [] (parts !! k)) (f k)) ∧ ts = w ≫= f.
Proof.
  revert ts. induction w as [|k w IH]; intros ts Hnd Hg.
  { exists (λ _, []). split; [intros k Hk; by apply elem_of_nil in Hk|]. unfold window in Hg. cbn in Hg. by apply Forall2_nil_inv_l in Hg. }
  apply NoDup_cons in Hnd as [Hk Hnd]. change (window parts (k :: w)) with (default [] (parts !! k) ++ window parts w) in Hg.
  apply Forall2_app_inv_l in Hg as (ts1 & ts2 & H1 & H2 & ->). destruct (IH ts2 Hnd H2) as (f & Hf & ->).
  exists (λ i, if decide (i = k) then ts1 else f i). split.
  - intros i [->|Hi]%elem_of_cons; [by rewrite decide_True|]. rewrite decide_False by (by intros ->). auto.
  - rewrite bind_cons, decide_True by done. f_equal. apply bind_cond. intros i Hi. by rewrite decide_False by (by intros ->).
Qed.
(** The transaction of a group. *)
Definition group_trn (ho : hash_order) (tz : instant → date) (db : tz_db) (ns : str) (tg : instant * list pp_row) (trn : transaction) : Prop :=
  ∃ n, first_name tg.2 n ∧ trn = Transaction None (tz tg.1) None None None n (group_posts ho true db ns tg.2).
Lemma first_name_fun g n n' : first_name g n → first_name g n' → n = n'.
Proof.
  intros (i & r & Hr & Hn & Hb) (i' & r' & Hr' & Hn' & Hb'). destruct (Nat.lt_trichotomy i i') as [H|[->|H]].
  - specialize (Hb' i r H Hr). congruence.
  - congruence.
  - specialize (Hb i' r' H Hr'). congruence.
Qed.
Lemma group_posts_order ho ho' db ns g : hash_order_ok ho → hash_order_ok ho' → group_posts ho true db ns g = group_posts ho' true db ns g.
Proof.
  intros H H'. unfold group_posts. f_equal. apply imap_ext. intros i v _. unfold pp_form_postings. cbv zeta.
  by rewrite !(into_opt_comment_order ho ho' _ H H').
Qed.
Lemma groups_fun ho ho' tz db ns gs ts ts' : hash_order_ok ho → hash_order_ok ho' →
  Forall2 (group_trn ho tz db ns) gs ts → Forall2 (group_trn ho' tz db ns) gs ts' → ts = ts'.
Proof.
  intros H H' HF. revert ts'. induction HF as [|g t gs ts (n & Hn & ->) _ IH]; intros ts' HF'.
  - by apply Forall2_nil_inv_l in HF'.
  - apply Forall2_cons_inv_l in HF' as (t' & ts1 & (n' & Hn' & ->) & HF' & ->).
    rewrite (first_name_fun _ _ _ Hn Hn'), (group_posts_order ho ho') by done. f_equal. by apply IH.
Qed.
Lemma pp_import_groups ho tz db ns rows ts gs : pp_import ho true tz db ns rows = Ok ts → runs db rows gs → Forall2 (group_trn ho tz db ns) gs ts.
Proof.
  intros (Hn & Hz & H)%pp_import_spec Hr. by rewrite (runs_unique _ _ _ _ Hr (row_groups_runs db ns rows Hz)).
Qed.
Lemma pp_ok ho tz db ns rows ts gs : hash_order_ok ho → rows_ok rows →
  pp_import ho true tz db ns rows = Ok ts → runs db rows gs → NoDup gs.*1 → ¬ groups_collide gs → journal_ok (as_merged ts).
Proof.
  intros Hho Hok Hi Hr Hnd Hcol. split_and!.
  - intros p Hp. apply (pp_mergeable ho tz db ns rows ts p Hho Hok Hi Hp).
  - intros i j p q Hp Hq Hsh. destruct (decide (i = j)) as [|Hij]; [done|]. destruct Hcol. by eapply (c51_all ho true tz db ns rows ts gs i j p q).
  - intros tp (t & -> & Ht)%elem_of_list_fmap. destruct (pp_trn _ _ _ _ _ _ _ _ Hi Ht) as (_ & g & Eg & Hne). cbn. rewrite Eg.
    destruct (group_posts_lookup ho true db ns g) as [Hl _]. intros E%(f_equal length). rewrite fmap_length, Hl in E. destruct g; [done|]. cbn in E. lia.
Qed.

(** C88 *)
Lemma pp_pieces tz db ns groups ws tss seen ts :
  days (λ g, tz g.1) groups → Forall2 (pp_statement tz db ns groups) ws tss →
  covers ws seen → pp_statement tz db ns groups seen ts → NoDup (window groups seen).*1 → ¬ groups_collide (window groups seen) →
  ∃ f, as_merged ts = seen ≫= f ∧ as_merged <$> tss = (λ w, w ≫= f) <$> ws ∧ journal_ok (seen ≫= f) ∧
    (∀ i k a b, i ∈ seen → k ∈ seen → a ∈ f i → b ∈ f k → tp_date a = tp_date b ↔ i = k) ∧ Forall NoDup ws.
Proof.
  intros Hd Hws Hcov (Hnd & ho0 & rows & Hho0 & Hok & Hr & Him) Htimes Hcol.
  pose proof (pp_import_groups _ _ _ _ _ _ _ Him Hr) as Hg.
  destruct (forall2_window _ groups seen ts Hnd Hg) as (f & Hfk & Ets).
  exists (λ k, as_merged (f k)). rewrite <- as_merged_bind, <- Ets. split; [done|].
  split.
  { assert (∀ w, w ∈ ws → ∀ k, k ∈ w → k ∈ seen) as Hsub by (intros w Hw k Hk; apply Hcov; eauto).
    clear -Hws Hsub Hfk Hho0. induction Hws as [|w tw ws tss Hw Hws IH]; [done|]. rewrite !fmap_cons. f_equal.
    - destruct Hw as (Hndw & how & rw & Hhow & _ & Hrw & Himw). pose proof (pp_import_groups _ _ _ _ _ _ _ Himw Hrw) as Hgw.
      destruct (forall2_window _ groups w tw Hndw Hgw) as (g & Hgk & ->). rewrite as_merged_bind. apply bind_cond. intros k Hk. f_equal.
      eapply (groups_fun how ho0); [done..|by apply Hgk|]. apply Hfk. eapply Hsub; [left|done].
    - apply IH. intros w' Hw'. apply Hsub. by right. }
  split; [|split].
  - by eapply pp_ok.
  - intros i k a b Hi Hk (t & -> & Ht)%elem_of_list_fmap (t' & -> & Ht')%elem_of_list_fmap. rewrite !date_merged.
    assert (∀ k t, k ∈ seen → t ∈ f k → ∃ D g, groups !! k = Some D ∧ g ∈ D ∧ tz g.1 = t_date t) as Hx.
    { clear -Hfk. intros k t Hk [n Ht]%elem_of_list_lookup. destruct (Forall2_lookup_r _ _ _ _ _ (Hfk k Hk) Ht) as (g & Hgk & nm & _ & ->).
      destruct (groups !! k) as [D|]; [|done]. exists D, g. split_and!; [done|by eapply elem_of_list_lookup_2|done]. }
    destruct (Hx i t Hi Ht) as (D & g & HD & Hg1 & <-), (Hx k t' Hk Ht') as (D' & g' & HD' & Hg2 & <-). by apply (Hd i k D D' g g').
  - apply Forall_forall. intros w [i Hi]%elem_of_list_lookup. destruct (Forall2_lookup_l _ _ _ _ _ Hws Hi) as (tw & _ & Hw). apply Hw.
Qed.
Lemma pp_overlaps tz db ns groups ws tss seen ts hos :
  days (λ g, tz g.1) groups → Forall2 (pp_statement tz db ns groups) ws tss →
  covers ws seen → pp_statement tz db ns groups seen ts → NoDup (window groups seen).*1 → ¬ groups_collide (window groups seen) →
  length hos = length ws → Forall hash_order_ok hos →
  ∃ m, clean_run merger_new (zip hos (as_merged <$> tss)) m ∧
    ∀ ho, hash_order_ok ho → build ho m = Ok (stable_sort (by_key tp_date) (as_merged ts)).
Proof.
  intros Hd Hws Hcov Hts Htimes Hcol Hlen Hhos. destruct (pp_pieces tz db ns groups ws tss seen ts) as (f & -> & -> & Hok & Hda & Hnd); try done.
  by apply pieces_merge.
Qed.

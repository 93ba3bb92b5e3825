(** A statement cut within a day numbers the rows of that day differently (C89). *)
From Verif Require Import MergeClaims.
From Verif Require Import Base Types SpecBase CommentModel MergeModel FingerprintModel NwCsvModel
  CommentClaims FingerprintClaims ImportClaims ImportProofs ImportRows ImportLaws BaseProofs StatementClaims SameFpClaims SameFp CutClaims.
Local Open Scope nat_scope.

Lemma run_length_app' d a b : run_length d (a ++ b) = run_length d a + if decide (Forall (λ x, x = d) a) then run_length d b else 0.
Proof.
  induction a as [|x a IH]; cbn [app run_length].
  - rewrite decide_True; [done|constructor].
  - destruct (decide (x = d)) as [->|Hne].
    + rewrite IH. cbn. f_equal. f_equal. destruct (decide (Forall _ a)) as [H|H].
      * rewrite decide_True; [done|by constructor].
      * rewrite decide_False; [done|]. by intros [_ ?]%Forall_cons_1.
    + rewrite decide_False; [done|]. by intros [? _]%Forall_cons_1.
Qed.
Lemma run_length_zero d l : run_length d l = 0 ↔ head l ≠ Some d.
Proof. destruct l as [|x l]; cbn; [done|]. destruct (decide (x = d)) as [->|H]; split; [done|naive_solver|naive_solver|done]. Qed.
Lemma head_reverse {A} (l : list A) : head (reverse l) = last l.
Proof. induction l as [|x l _] using rev_ind; [done|]. by rewrite reverse_snoc, last_snoc. Qed.
Lemma day_number_cut (ds : list date) c j : c + j < length ds →
  (day_number ds (c + j) = day_number (drop c ds) j ↔ ¬ day_cut ds c (c + j)).
Proof.
  intros Hlt. unfold day_number. rewrite lookup_drop. destruct (lookup_lt_is_Some_2 ds (c + j) Hlt) as [d Hd]. rewrite Hd.
  assert (take (c + j) ds = take c ds ++ take j (drop c ds)) as ->.
  { rewrite take_take_drop. done. }
  rewrite reverse_app, run_length_app'. destruct (decide _) as [H|H].
  - rewrite <- (Nat.add_0_r (run_length d (reverse (take j (drop c ds))))) at 2.
    rewrite Nat.add_cancel_l, run_length_zero, head_reverse. rewrite Forall_reverse in H.
    assert (∀ i, c ≤ i → i ≤ c + j → ds !! i = Some d) as Hall.
    { intros i H1 H2. destruct (decide (i = c + j)) as [->|Hi]; [done|]. destruct (lookup_lt_is_Some_2 ds i) as [x Hx]; [lia|]. rewrite Hx. f_equal.
      apply (proj1 (Forall_lookup _ _) H (i - c)). rewrite lookup_take, lookup_drop by lia. replace (c + (i - c)) with i by lia. done. }
    rewrite last_lookup, take_length, Nat.min_l by lia. split.
    + intros Hl [[H0 _] Hc]. apply Hl. rewrite lookup_take by lia. rewrite <- Hd. apply Hc; lia.
    + intros Hc Hl. apply Hc. destruct c as [|c]; [done|]. split; [lia|]. intros i H1 H2. rewrite Hd.
      destruct (decide (i = c)) as [->|Hi]; [|apply Hall; lia]. cbn [pred] in Hl. rewrite lookup_take in Hl by lia. done.
  - rewrite Nat.add_0_r. split; [|done]. intros _ [_ Hc]. apply H, Forall_reverse, Forall_lookup. intros i x Hx.
    pose proof (lookup_lt_Some _ _ _ Hx) as Hi. rewrite take_length, drop_length in Hi.
    rewrite lookup_take, lookup_drop in Hx by lia. rewrite Hc in Hx by lia. congruence.
Qed.

Lemma cut_renumbers pd o name rs c ts ts' j t t' n p q r : parser_ok pd →
  row_statement pd o name rs ts → row_statement pd o name (drop c rs) ts' → rs !! (c + j) = Some r →
  ts !! (c + j) = Some t → ts' !! j = Some t' → t_postings t !! n = Some p → t_postings t' !! n = Some q →
  (¬ day_cut (rec_date <$> rs) c (c + j) → share_fp (posting_internal_of p) (posting_internal_of q)) ∧
  (day_cut (rec_date <$> rs) c (c + j) → share_fp (posting_internal_of p) (posting_internal_of q) →
    row_messages_collide r (day_number (rec_date <$> rs) (c + j)) r (day_number (rec_date <$> drop c rs) j)).
Proof.
  intros Hpd (ho & records & ns & Hho & Hf & Hs & Hi) (ho' & records' & ns' & Hho' & Hf' & Hs' & Hi') Hr Hk Hk' Hp Hq.
  assert (ns' = ns) as ->.
  { apply import_row in Hi as (nm & rs1 & R1 & E1 & _). apply import_row in Hi' as (nm' & rs2 & R2 & E2 & _).
    destruct (statement_fun _ _ _ _ _ _ Hs R1) as [<- _]. destruct (statement_fun _ _ _ _ _ _ Hs' R2) as [<- _]. congruence. }
  assert (drop c rs !! j = Some r) as Hr' by (by rewrite lookup_drop).
  destruct (nw_share _ _ _ _ _ _ _ _ _ _ _ _ _ _ _ _ _ _ _ _ _ _ _ _ _ _ Hho Hho' Hpd Hpd Hf Hf' Hi Hi' Hs Hs' Hk Hk' Hp Hq Hr Hr') as [H1 H2].
  cbv zeta in H1, H2.
  assert (c + j < length (rec_date <$> rs)) as Hlt by (rewrite fmap_length; by eapply lookup_lt_Some).
  pose proof (day_number_cut (rec_date <$> rs) c j Hlt) as Hc. rewrite <- fmap_drop in Hc. split.
  - intros Hn. apply H1. split_and!; [done|done|by apply Hc|by left].
  - intros Hd Hsh. destruct (H2 Hsh) as [(_ & _ & E & _)|?]; [|done]. by apply Hc in E.
Qed.

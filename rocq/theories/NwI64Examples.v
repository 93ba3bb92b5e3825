(** Statements for C126. *)
From Verif Require Import MergeClaims.
From Verif Require Import Base Types BaseProofs CommentModel FingerprintModel NwCsvModel PaypalModel ImportClaims ImportProofs
  ImportExamples TestsImport NwI64Model NwI64Claims.
From Coq Require Import Lia.
Local Open Scope nat_scope.

(** Short texts are never too large. *)
Lemma number_bound s : (∀ c, c ∈ s → (48 ≤ c ≤ 57)%N) → (number s < 10 ^ N.of_nat (length s))%N.
Proof.
  unfold number. induction s as [|c s IH] using rev_ind; intros H; [done|].
  rewrite foldl_app. cbn [foldl]. rewrite app_length. cbn [length].
  replace (N.of_nat (length s + 1)) with (N.succ (N.of_nat (length s))) by lia. rewrite N.pow_succ_r'.
  assert (foldl (λ n c, 10 * n + (c - 48))%N 0%N s < 10 ^ N.of_nat (length s))%N as IH'.
  { apply IH. intros x Hx. apply H. apply elem_of_app. by left. }
  assert (48 ≤ c ≤ 57)%N as Hc. { apply H, elem_of_app. right. left. }
  lia.
Qed.
Lemma short_fits s : length s ≤ 18 → ¬ too_large s.
Proof.
  intros Hl (pre & neg & P & F & post & -> & DP & DF & H).
  pose proof (number_bound P (proj2 DP)) as HP. pose proof (number_bound F (proj2 DF)) as HF.
  rewrite !app_length in Hl. cbn [length] in Hl. rewrite !app_length in Hl. cbn [length] in Hl. rewrite !app_length in Hl.
  assert (10 ^ N.of_nat (length P) ≤ 10 ^ 16)%N by (apply N.pow_le_mono_r; lia).
  assert (10 ^ N.of_nat (length F) ≤ 10 ^ 16)%N by (apply N.pow_le_mono_r; lia).
  change (2 ^ 63)%N with 9223372036854775808%N in H. change (10 ^ 16)%N with 10000000000000000%N in *. lia.
Qed.
Lemma short_records rs : forallb (λ r, forallb (λ s, length s <=? 18) r) rs = true →
  ∀ row s, row ∈ rs → s ∈ row → ¬ too_large s.
Proof.
  intros H row s Hr Hs. rewrite forallb_forall in H. apply elem_of_list_In, H in Hr. rewrite forallb_forall in Hr.
  apply elem_of_list_In, Hr, Nat.leb_le in Hs. by apply short_fits.
Qed.
(** One payment. *)
Definition ex_one (m : string) : list csv_record := ex_head ++ [ex_row "01 Sep 2021" "COFFEE" m].
(** The amounts of the postings made. *)
Definition amounts_made (r : result (str * list transaction)) : result (list (option posting_amount)) :=
  match r with Ok x => Ok (x.2 ≫= λ t, p_amount <$> t_postings t) | Err e => Err e | Panic => Panic end.
Definition both_sides (neg : bool) (pence : N) : list (option posting_amount) :=
  [Some (simple_posting_amount (Amount (Dec neg 2 pence) GBP)); Some (simple_posting_amount (Amount (Dec (negb neg) 2 pence) GBP))].

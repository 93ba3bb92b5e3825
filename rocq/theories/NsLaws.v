(** Generated namespaces of different accounts (C42). *)
From Verif Require Import Base Types CommentModel Sha1 FingerprintModel NwCsvModel PaypalModel CommentClaims FingerprintClaims NsClaims FingerprintProofs FingerprintLaws.
Local Open Scope N_scope.

Lemma base64_first (l : list N) : (6 ≤ length l)%nat → take 8 (base64 l) = base64 (take 6 l).
Proof.
  intros H. destruct l as [|a [|b [|c [|d [|e [|f l]]]]]]; cbn [length] in H; try lia. reflexivity.
Qed.
Lemma generated_distinct a a' : str_ok a → str_ok a' →
  make_namespace NsGenerated a = make_namespace NsGenerated a' →
  a = a' ∨ (namespace_message a ≠ namespace_message a' ∧
    take 6 (sha1 (namespace_message a)) = take 6 (sha1 (namespace_message a'))).
Proof.
  intros Ha Ha' E. unfold make_namespace in E. apply (f_equal (λ r, match r with Ok x => x | _ => [] end)) in E. cbn beta iota in E.
  unfold into_base64 in E.
  change (with_str a (with_str BANK_NAME [])) with (namespace_message a) in E.
  change (with_str a' (with_str BANK_NAME [])) with (namespace_message a') in E.
  destruct (sha1_shape (namespace_message a)) as [L1 B1], (sha1_shape (namespace_message a')) as [L2 B2].
  rewrite !base64_first in E by lia. apply base64_inj in E.
  - destruct (decide (a = a')) as [|Hne]; [by left|]. right. split; [|done]. intros Em. apply Hne.
    unfold namespace_message in Em. rewrite (with_str_app a), (with_str_app a') in Em. apply app_inv_head in Em.
    assert (with_str a [] ++ [] = with_str a' [] ++ []) as Em' by (by rewrite !with_str_app, Em).
    by apply (with_str_pf a a' [] [] Ha Ha') in Em' as [? _].
  - rewrite !take_length. lia.
  - intros b Hb. apply B1. by apply elem_of_take' in Hb.
  - intros b Hb. apply B2. by apply elem_of_take' in Hb.
Qed.
Lemma chosen_namespace (name s : str) (t : gmap str str) (ns : str) :
  (make_namespace NsAccountName name = Ok ns ↔ ns = name) ∧
  (make_namespace (NsFixed s) name = Ok ns ↔ ns = s) ∧
  (make_namespace (NsLookup t) name = Ok ns ↔ t !! name = Some ns) ∧
  (t !! name = None → ∃ e, make_namespace (NsLookup t) name = Err e).
Proof.
  unfold make_namespace. split; [split; [by intros [= ->]|by intros ->]|]. split; [split; [by intros [= ->]|by intros ->]|].
  destruct (t !! name) as [x|]; split; try done.
  - split; by intros [= ->].
  - intros _. by eexists.
Qed.

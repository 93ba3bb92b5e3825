(** What the class [\d] matches (C90). *)
From stdpp Require Import gmap list.
From Verif Require Import Base Types NwCsvModel RegexModel RegexClaims RegexLaws RegexEngine.
From Coq Require Import Lia.
Local Open Scope nat_scope.

Lemma rx_digit_low c : (c < 1632)%N → rx_digit c = true ↔ (48 ≤ c ≤ 57)%N.
Proof.
  intros Hc. unfold rx_digit. rewrite existsb_exists. split.
  - intros (z & Hz & [H1%N.leb_le H2%N.leb_le]%andb_true_iff). assert (Forall (λ z, z = 48 ∨ 1632 ≤ z)%N nd_blocks) as H by by_compute.
    rewrite Forall_forall in H. destruct (H z) as [->|?]; [by apply elem_of_list_In|lia|lia].
  - intros [H1 H2]. exists 48%N. split; [by left|]. apply andb_true_iff. rewrite !N.leb_le. lia.
Qed.
Lemma regex_digit r s : rx_parse (s2l "\d") = Some r → (∀ c, c ∈ s → (c < 1632)%N) →
  rx_is_match r s = true ↔ ∃ c, c ∈ s ∧ (48 ≤ c ≤ 57)%N.
Proof.
  intros Hr Hs. assert (r = XClass false [IDigit]) as -> by (injection Hr as <-; reflexivity).
  rewrite regex_is_match. split.
  - intros (before & s' & q & -> & H). inversion H as [|? ? ? x s0 Hx| | | | | | | |]; subst. exists x.
    assert (x ∈ before ++ x :: s0) as Hin by (apply elem_of_app; right; left). split; [done|].
    cbn [existsb item_match xorb] in Hx. rewrite orb_false_r in Hx. apply rx_digit_low; [by apply Hs|]. by destruct (rx_digit x).
  - intros (c & Hc & Hd). destruct (elem_of_list_split _ _ Hc) as (before & after & ->). exists before, (c :: after), (false, after). split; [done|].
    constructor. cbn [existsb item_match xorb]. apply rx_digit_low in Hd; [by rewrite Hd|by apply Hs].
Qed.

(** The properties of fingerprints (C38-C42).  The vocabulary ([five_ok], ...,
    [sha1_collision], [five_message], ..., [fp_part], [good_fp_tag]) is in
    FingerprintClaims.v. *)
From Verif Require Import Base Types CommentModel Sha1 FingerprintModel NwCsvModel TzModel PaypalModel CommentClaims FingerprintClaims NsClaims FingerprintLaws NsLaws.
Local Open Scope N_scope.

Definition ex_amount (m : N) : amount := Amount (Dec false 2 m) GBP.
Definition ex_five : record_five :=
  RecordFive (2021%Z, 9, 1) (s2l "FOO CO") (s2l "FOO.CO/THING#") (Some (ex_amount 123)) None.
Definition ex_six : record_six :=
  RecordSix (2019%Z, 1, 1) (s2l "ATM") (s2l "ATM Withdrawal") (Some (ex_amount 3000)) None (ex_amount 20000).
Definition ex_row : pp_row :=
  PpRow (2019%Z, 1, 1) (1, 23, 45, 0) (s2l "GMT") (Some (s2l "Somecompany Inc.")) (s2l "Payment")
    PpCompleted (s2l "USD") (Dec true 0 5) (Some (s2l "r1")) (Dec true 0 5).
Lemma str_ok_compute s : forallb (λ c, c <? 1114112) s && (utf8_len s <? 2 ^ 64) = true → str_ok s.
Proof.
  intros [H1 H2]%andb_true_iff. split; [|by apply N.ltb_lt].
  intros c Hc. rewrite forallb_forall in H1. by apply N.ltb_lt, H1, elem_of_list_In.
Qed.
Lemma ex_amount_ok m : m < 2 ^ 96 → amount_ok (ex_amount m).
Proof. intros Hm. split; [done|]. by apply str_ok_compute. Qed.
Lemma ex_five_ok : five_ok ex_five.
Proof.
  unfold five_ok. split_and!; [done|by apply str_ok_compute|by apply str_ok_compute| |done].
  intros a E. injection E as <-. by apply ex_amount_ok.
Qed.
Lemma ex_six_ok : six_ok ex_six.
Proof.
  unfold six_ok. split_and!; [done|by apply str_ok_compute|by apply str_ok_compute| |done|by apply ex_amount_ok].
  intros a E. injection E as <-. by apply ex_amount_ok.
Qed.
Lemma ex_row_ok : pp_row_ok ex_row.
Proof.
  unfold pp_row_ok. split_and!; try done; try by apply str_ok_compute.
  intros a E. injection E as <-. by apply str_ok_compute.
Qed.

(** C38: equal tags mean equal record, namespace, number within the day (or
    within the group) and side, unless the two hashed messages collide. *)
Theorem C38_nationwide_five r r' ns ns' i i' s s' f f' :
  five_ok r → five_ok r' → i32_ok i → i32_ok i' →
  five_fingerprint_v1 r ns i = Ok f → five_fingerprint_v1 r' ns' i' = Ok f' →
  tag (pick s f) = tag (pick s' f') →
  (r = r' ∧ ns = ns' ∧ i = i' ∧ s = s') ∨ sha1_collision (five_message r i s) (five_message r' i' s').
Proof. exact (five_distinct r r' ns ns' i i' s s' f f'). Qed.
Print Assumptions C38_nationwide_five.
Theorem C38_nationwide_six r r' ns ns' i i' s s' f f' :
  six_ok r → six_ok r' → i32_ok i → i32_ok i' →
  six_fingerprint_v1 r ns i = Ok f → six_fingerprint_v1 r' ns' i' = Ok f' →
  tag (pick s f) = tag (pick s' f') →
  (r = r' ∧ ns = ns' ∧ i = i' ∧ s = s') ∨ sha1_collision (six_message r i s) (six_message r' i' s').
Proof. exact (six_distinct r r' ns ns' i i' s s' f f'). Qed.
Print Assumptions C38_nationwide_six.
Theorem C38_paypal db ns ns' v v' r r' i i' s s' :
  pp_row_ok v → pp_row_ok v' → N.of_nat i < 2 ^ 64 → N.of_nat i' < 2 ^ 64 →
  from_csv_record db ns v = Ok r → from_csv_record db ns' v' = Ok r' →
  tag (pick s (self_and_peer_fingerprints (pp_partial_fp (with_index i r)))) =
    tag (pick s' (self_and_peer_fingerprints (pp_partial_fp (with_index i' r')))) →
  (pp_same_hashed v v' ∧ ns = ns' ∧ i = i' ∧ s = s') ∨ sha1_collision (pp_message v i s) (pp_message v' i' s').
Proof. exact (pp_distinct db ns ns' v v' r r' i i' s s'). Qed.
Print Assumptions C38_paypal.
(** The legacy tag leaves out the description (src/importers/nationwide_csv.rs:393)
    but covers everything else. *)
Theorem C38_nationwide_legacy r r' ns ns' i i' h h' s s' f f' :
  six_ok r → six_ok r' → i32_ok i → i32_ok i' →
  (∀ s, str_ok (aa_account (pick s h)) ∧ amount_ok (aa_amount (pick s h))) →
  (∀ s, str_ok (aa_account (pick s h')) ∧ amount_ok (aa_amount (pick s h'))) →
  six_fingerprint_legacy r ns i h = Ok f → six_fingerprint_legacy r' ns' i' h' = Ok f' →
  legacy_tag (pick s f) = legacy_tag (pick s' f') →
  (r6_type r = r6_type r' ∧ r6_date r = r6_date r' ∧ r6_balance r = r6_balance r' ∧ i = i' ∧
   ns = ns' ∧ pick s h = pick s' h') ∨
  sha1_collision (legacy_message r i (pick s h)) (legacy_message r' i' (pick s' h')).
Proof. exact (legacy_distinct r r' ns ns' i i' h h' s s' f f'). Qed.
Print Assumptions C38_nationwide_legacy.
Example C38_ex : five_ok ex_five ∧ six_ok ex_six ∧ pp_row_ok ex_row ∧
  rmap (λ f, tag f.1) (five_fingerprint_v1 ex_five (s2l "1zY5uuo1") 0)
    = Ok (s2l "fp-nwcsv5.1.1zY5uuo1-QNzoqO48q6tCbTaX5DIDZjPXP34") ∧
  rmap (λ f, tag f.1) (five_fingerprint_v1 ex_five (s2l "1zY5uuo1") 1)
    ≠ Ok (s2l "fp-nwcsv5.1.1zY5uuo1-QNzoqO48q6tCbTaX5DIDZjPXP34") ∧
  rmap (λ f, tag f.1) (six_fingerprint_v1 ex_six (s2l "LVcP3L+Y") 0)
    = Ok (s2l "fp-nwcsv6.1.LVcP3L+Y-Ky2B1EX+g8t8t+n0PEJfFIJPuz8").
Proof. split; [exact ex_five_ok|]. split; [exact ex_six_ok|]. split; [exact ex_row_ok|]. split_and!; by_compute. Qed.

(** C39: in any fingerprint builder state. *)
Theorem C39_self_peer_distinct b s s' : fp_part (fb_algorithm b) → fp_part (fb_namespace b) →
  s ≠ s' → tag (pick s (self_and_peer_fingerprints b)) = tag (pick s' (self_and_peer_fingerprints b)) →
  sha1_collision (fb_acc b ++ with_str (side_name s) []) (fb_acc b ++ with_str (side_name s') []).
Proof. exact (self_peer_distinct b s s'). Qed.
Print Assumptions C39_self_peer_distinct.
Example C39_ex : tag (builder_build (Builder [1; 2] (s2l "a") 1 (s2l "n"))) = s2l "fp-a.1.n-DKYj4oVfLHXIQq0wL+gg5BtNGX0" ∧
  tag (pick Self (self_and_peer_fingerprints (Builder [1; 2] (s2l "a") 1 (s2l "n")))) ≠
  tag (pick Peer (self_and_peer_fingerprints (Builder [1; 2] (s2l "a") 1 (s2l "n")))).
Proof. split_and!; by_compute. Qed.

(** C40: whatever is added to an accepted builder. *)
Theorem C40_tags_well_formed alg v ns b f : builder_new alg v ns = Ok b →
  good_fp_tag (tag (builder_build (builder_with f b))) ∧
  good_fp_tag (legacy_tag (builder_build (builder_with f b))).
Proof. exact (λ H, conj (good_tag _ (build_new_ok alg v ns b f H)) (good_legacy_tag _ (build_new_ok alg v ns b f H))). Qed.
Print Assumptions C40_tags_well_formed.
Example C40_ex : rmap (λ b, tag (builder_build (builder_with (with_str (s2l "x y:z")) b)))
    (builder_new (s2l "nwcsv5") 1 (s2l "A+/_9"))
  = Ok (s2l "fp-nwcsv5.1.A+/_9-8qO33s8HKsd1ld8Q+Lc351OSAww").
Proof. by_compute. Qed.

(** C41 *)
Theorem C41_tags_decode f g : fp_ok f → fp_ok g → tag f = tag g → f = g.
Proof. exact (tag_inj f g). Qed.
Print Assumptions C41_tags_decode.
Theorem C41_legacy_tags_decode f g : fp_ok f → fp_ok g → legacy_tag f = legacy_tag g →
  fp_namespace f = fp_namespace g ∧ fp_value f = fp_value g.
Proof. exact (legacy_tag_inj f g). Qed.
Print Assumptions C41_legacy_tags_decode.
Theorem C41_legacy_not_versioned f g : fp_ok f → legacy_tag f ≠ tag g.
Proof. exact (legacy_not_versioned f g). Qed.
Print Assumptions C41_legacy_not_versioned.
(** Every fingerprint of an accepted builder has such parts. *)
Theorem C41_built_fingerprints alg v ns b f : builder_new alg v ns = Ok b → fp_ok (builder_build (builder_with f b)).
Proof. exact (build_new_ok alg v ns b f). Qed.
Print Assumptions C41_built_fingerprints.
(** With other characters the parts could not be told apart. *)
Example C41_ex : let f := Fingerprint (s2l "a") 1 (s2l "b-c") (s2l "d") in
  let g := Fingerprint (s2l "a") 1 (s2l "b") (s2l "c-d") in
  tag f = tag g ∧ f ≠ g ∧ rmap fb_namespace (builder_new (s2l "a") 1 (s2l "b-c")) = Err EBadNamespace.
Proof. cbv zeta. split; [by_compute|]. split; [discriminate|by_compute]. Qed.

(** C42 *)
Theorem C42_namespace_validation alg v ns b : builder_new alg v ns = Ok b ↔
  fp_part alg ∧ fp_part ns ∧ b = Builder [] alg v ns.
Proof. exact (FingerprintProofs.builder_new_ok alg v ns b). Qed.
Print Assumptions C42_namespace_validation.
Theorem C42_no_panic alg v ns : builder_new alg v ns ≠ Panic.
Proof. exact (builder_new_no_panic alg v ns). Qed.
Print Assumptions C42_no_panic.
Theorem C42_generated_accepted name :
  ∃ ns, make_namespace NsGenerated name = Ok ns ∧ fp_part ns ∧ length ns = 8%nat.
Proof. exact (generated_ok name). Qed.
Print Assumptions C42_generated_accepted.
(** Accounts with one generated namespace are one account, unless two different
    messages agree in the first 48 bits of their digests. *)
Theorem C42_generated_distinct a a' : str_ok a → str_ok a' →
  make_namespace NsGenerated a = make_namespace NsGenerated a' →
  a = a' ∨ (namespace_message a ≠ namespace_message a' ∧
    take 6 (sha1 (namespace_message a)) = take 6 (sha1 (namespace_message a'))).
Proof. exact (generated_distinct a a'). Qed.
Print Assumptions C42_generated_distinct.
(** The other choices: the account's name, a fixed text, or what a table has for the
    account; an account not in the table is refused. *)
Theorem C42_chosen (name s : str) (t : gmap str str) (ns : str) :
  (make_namespace NsAccountName name = Ok ns ↔ ns = name) ∧
  (make_namespace (NsFixed s) name = Ok ns ↔ ns = s) ∧
  (make_namespace (NsLookup t) name = Ok ns ↔ t !! name = Some ns) ∧
  (t !! name = None → ∃ e, make_namespace (NsLookup t) name = Err e).
Proof. exact (chosen_namespace name s t ns). Qed.
Print Assumptions C42_chosen.
Example C42_distinct_ex : str_ok (s2l "My Account ****4321") ∧ str_ok (s2l "My Account ****4322") ∧
  make_namespace NsGenerated (s2l "My Account ****4321") ≠ make_namespace NsGenerated (s2l "My Account ****4322").
Proof. split; [by apply str_ok_compute|]. split; [by apply str_ok_compute|by_compute]. Qed.
Example C42_ex : make_namespace NsGenerated (s2l "My Account ****4321") = Ok (s2l "1zY5uuo1") ∧
  rmap fb_namespace (builder_new (s2l "a") 1 (s2l "My Account ****4321")) = Err EBadNamespace ∧
  rmap fb_namespace (builder_new (s2l "a") 1 (s2l "x" ++ [newline])) = Err EBadNamespace ∧
  rmap fb_namespace (builder_new (s2l "a") 1 []) = Ok [].
Proof. split_and!; by_compute. Qed.

(** Text is recognised as the regular expressions of the source say. *)
From stdpp Require Import gmap list.
From Verif Require Import MergeClaims.
From Verif Require Import Base Types SpecBase BaseProofs CommentModel FingerprintModel NwCsvModel TzModel OcrModel PdfModel RegexModel RegexClaims RegexLaws RegexEngine RegexDigit.
Local Open Scope nat_scope.

(** C90: what the matcher does is what the expressions mean. *)
Theorem C90_is_match r s : rx_is_match r s = true ↔ ∃ before s' q, s = before ++ s' ∧ matches r (place_at before s') q.
Proof. exact (regex_is_match r s). Qed.
Print Assumptions C90_is_match.
Theorem C90_leftmost r s m : rx_find r true [] s = Some m →
  ∃ s', s = m_before m ++ s' ∧ (∃ b, matches r (place_at (m_before m) s') (b, m_rest m)) ∧
    (∀ t u q, m_before m = t ++ u → u ≠ [] → ¬ matches r (place_at t (u ++ s')) q).
Proof. exact (regex_leftmost r s m). Qed.
Print Assumptions C90_leftmost.
(** Of the characters before the digits of other scripts, a class of digits matches
    0 to 9. *)
Theorem C90_digit r s : rx_parse (s2l "\d") = Some r → (∀ c, c ∈ s → (c < 1632)%N) →
  rx_is_match r s = true ↔ ∃ c, c ∈ s ∧ (48 ≤ c ≤ 57)%N.
Proof. exact (regex_digit r s). Qed.
Print Assumptions C90_digit.
Example C90_digit_ex : (∃ r, rx_parse (s2l "\d") = Some r) ∧ (∀ c, c ∈ s2l "no 9" → (c < 1632)%N).
Proof. split; [by eexists|]. intros c Hc. assert (Forall (λ c, c < 1632)%N (s2l "no 9")) as H by by_compute. rewrite Forall_forall in H. by apply H. Qed.
Example C90_leftmost_ex :
  rx_find (XSeq (XClass false [IRange 97%N 97%N]) (XStar (XClass false [IRange 98%N 98%N]))) true [] (s2l "xxabbcab")
  = Some (RxMatch (s2l "xx") [] (s2l "cab")).
Proof. vm_compute. reflexivity. Qed.

Theorem C90_comment value flag text : rx_parse VALUE_TAG_RX = Some value → rx_parse FLAG_TAG_RX = Some flag →
  from_opt_comment (Some text) = regex_comment value flag text.
Proof. exact (regex_comment_eq value flag text). Qed.
Print Assumptions C90_comment.
Example C90_comment_ex : (∃ value, rx_parse VALUE_TAG_RX = Some value) ∧ (∃ flag, rx_parse FLAG_TAG_RX = Some flag) ∧
  from_opt_comment (Some (s2l "key:  some value" ++ [NL] ++ s2l "text :a:b: more :c:")) =
    Comment [s2l "text"; s2l "more"] {[s2l "a"; s2l "b"; s2l "c"]} {[s2l "key" := s2l "some value"]}.
Proof. split_and!; [eexists; vm_compute; reflexivity..|]. apply (bool_decide_unpack _). vm_compute. exact I. Qed.

Theorem C90_fingerprint_parts r algorithm version namespace : rx_parse VALID_FP_PART_RX = Some r →
  builder_new algorithm version namespace =
    if rx_is_match r algorithm then
      if rx_is_match r namespace then Ok (Builder [] algorithm version namespace) else Err EBadNamespace
    else Err EBadAlgorithm.
Proof. exact (regex_builder_eq r algorithm version namespace). Qed.
Print Assumptions C90_fingerprint_parts.
Example C90_fingerprint_parts_ex : (∃ r, rx_parse VALID_FP_PART_RX = Some r) ∧
  builder_new (s2l "nwcsv6") 1 (s2l "my bank") = Err EBadNamespace ∧ builder_new (s2l "nwcsv6") 1 (s2l "my_bank/+1") = Ok (Builder [] (s2l "nwcsv6") 1 (s2l "my_bank/+1")).
Proof. split_and!; [eexists; vm_compute; reflexivity|vm_compute; reflexivity|vm_compute; reflexivity]. Qed.

Theorem C90_utc_offset hours hours_mins s : rx_parse UTC_HOURS_RX = Some hours → rx_parse UTC_HOURS_MINS_RX = Some hours_mins →
  parse_utc_offset s = regex_utc_offset hours hours_mins s.
Proof. exact (regex_offset_eq hours hours_mins s). Qed.
Print Assumptions C90_utc_offset.
Example C90_utc_offset_ex : (∃ r, rx_parse UTC_HOURS_RX = Some r) ∧ (∃ r, rx_parse UTC_HOURS_MINS_RX = Some r) ∧
  parse_utc_offset (s2l "UTC-03:30") = Ok (-12600)%Z ∧ parse_utc_offset (s2l "UTC+3") = Err EBadOffset.
Proof. split_and!; [eexists; vm_compute; reflexivity..|vm_compute; reflexivity|vm_compute; reflexivity]. Qed.

Theorem C90_money r s : rx_parse GBP_RX = Some r → gbp_value s = regex_money r s.
Proof. exact (regex_money_eq r s). Qed.
Print Assumptions C90_money.
Example C90_money_ex : (∃ r, rx_parse GBP_RX = Some r) ∧
  gbp_value (s2l "paid " ++ POUND :: s2l "-12.5 in") = Ok (Amount (Dec true 2 1205) GBP) ∧ gbp_value (s2l "12.50") = Err EBadAmount.
Proof. split_and!; [eexists; vm_compute; reflexivity|vm_compute; reflexivity|vm_compute; reflexivity]. Qed.

Theorem C90_account_name sort_code acct_num l : rx_parse SORT_CODE_RX = Some sort_code → rx_parse ACCT_NUM_RX = Some acct_num →
  account_name_in l =
    match wd_text <$> ln_words l with
    | t0 :: t1 :: t2 :: t3 :: _ =>
        if bool_decide (t0 = s2l "Account") && bool_decide (t1 = s2l "Number") && rx_is_match sort_code t2 && rx_is_match acct_num t3
        then Some (t2 ++ s2l " " ++ t3) else None
    | _ => None
    end.
Proof. exact (regex_account_eq sort_code acct_num l). Qed.
Print Assumptions C90_account_name.
Example C90_account_name_ex : (∃ r, rx_parse SORT_CODE_RX = Some r ∧ rx_is_match r (s2l "12-34-56") = true ∧ rx_is_match r (s2l "12-34-567") = false) ∧
  (∃ r, rx_parse ACCT_NUM_RX = Some r ∧ rx_is_match r (s2l "12345678") = true ∧ rx_is_match r (s2l "1234567") = false).
Proof. split; eexists; (split; [vm_compute; reflexivity|]); split; vm_compute; reflexivity. Qed.

(** Laws of fingerprint tags. *)
From stdpp Require Import list pretty.
From Coq Require Import Ascii.
From Verif Require Import Base Types BaseProofs StrProofs Sha1 FingerprintModel NwCsvModel PaypalModel CommentClaims FingerprintClaims FingerprintProofs.
Local Open Scope N_scope.

(** ** Printed numbers *)
Lemma s2l_inj a b : s2l a = s2l b → a = b.
Proof.
  revert b. induction a as [|x a IH]; intros [|y b] E; try done.
  unfold s2l in E. cbn [list_ascii_of_string] in E. rewrite !fmap_cons in E.
  apply cons_inj in E as [E1 E2]. f_equal; [|by apply IH].
  by rewrite <-(ascii_N_embedding x), <-(ascii_N_embedding y), E1.
Qed.
Lemma show_Z_inj a b : show_Z a = show_Z b → a = b.
Proof. intros E. apply s2l_inj in E. by apply (inj pretty) in E. Qed.

Definition digit_char (c : char) : Prop := 48 ≤ c ≤ 57.
Lemma s2l_String x s : s2l (String x s) = N_of_ascii x :: s2l s.
Proof. done. Qed.
Lemma pretty_char_digit x : digit_char (N_of_ascii (pretty_N_char x)).
Proof. unfold pretty_N_char, digit_char. repeat case_match; vm_compute; split; discriminate. Qed.
Lemma pretty_go_digits x s : (∀ c, c ∈ s2l s → digit_char c) → ∀ c, c ∈ s2l (pretty_N_go x s) → digit_char c.
Proof.
  revert s. induction (N.lt_wf_0 x) as [x _ IH]. intros s Hs.
  destruct (decide (x = 0)) as [->|Hx].
  - rewrite pretty_N_go_0. done.
  - rewrite pretty_N_go_step by lia. apply IH; [apply N.div_lt; lia|].
    intros c Hc. rewrite s2l_String in Hc. apply elem_of_cons in Hc as [->|Hc]; [apply pretty_char_digit|by apply Hs].
Qed.
Lemma pretty_N_digits (n : N) : ∀ c, c ∈ s2l (pretty n) → digit_char c.
Proof.
  unfold pretty, pretty_N. case_match; intros c Hc.
  - cbn in Hc. apply elem_of_cons in Hc as [->|Hc]; [done|]. by apply elem_of_nil in Hc.
  - eapply pretty_go_digits; [|done]. intros d Hd. by apply elem_of_nil in Hd.
Qed.
Lemma show_Z_chars z c : c ∈ show_Z z → digit_char c ∨ c = 45.
Proof.
  unfold show_Z, pretty, pretty_Z. destruct z as [|p|p]; intros Hc.
  - cbn in Hc. apply elem_of_cons in Hc as [->|Hc]; [by left|]. by apply elem_of_nil in Hc.
  - left. by eapply pretty_N_digits.
  - change (c ∈ 45 :: s2l (pretty (N.pos p))) in Hc. apply elem_of_cons in Hc as [->|Hc]; [by right|].
    left. eapply pretty_N_digits. exact Hc.
Qed.

(** ** Decoding *)
Definition DASH : char := 45.
Lemma split_first (c : char) (a a' r r' : str) : c ∉ a → c ∉ a' → a ++ c :: r = a' ++ c :: r' → a = a' ∧ r = r'.
Proof.
  revert a'. induction a as [|x a IH]; intros [|y a'] Ha Ha' E.
  - cbn in E. by injection E.
  - cbn in E. injection E as -> _. exfalso. apply Ha'. left.
  - cbn in E. injection E as <- _. exfalso. apply Ha. left.
  - cbn [app] in E. apply cons_inj in E as [-> E]. apply IH in E as [-> ->]; [done| |].
    + intros H. apply Ha. by right.
    + intros H. apply Ha'. by right.
Qed.
Lemma part_not c s : fp_part s → fp_part_char c = false → c ∉ s.
Proof. intros Hs Hc Hin. apply Hs, part_char_spec in Hin. by rewrite Hc in Hin. Qed.
Lemma show_Z_no_dot z : DOT ∉ show_Z z.
Proof. intros H. apply show_Z_chars in H as [[H1 H2]|H]; [|done]. unfold DOT in *. lia. Qed.

Lemma tag_inj f g : fp_ok f → fp_ok g → tag f = tag g → f = g.
Proof.
  intros (Ha&Hn&Hv) (Ha'&Hn'&Hv') E. unfold tag in E.
  apply app_inv_head in E. cbn [app s2l] in E.
  apply (split_first DOT) in E as [E1 E]; [|by apply part_not|by apply part_not].
  apply (split_first DOT) in E as [E2 E]; [|apply show_Z_no_dot|apply show_Z_no_dot].
  apply (split_first DASH) in E as [E3 E4]; [|by apply part_not|by apply part_not].
  apply show_Z_inj in E2. destruct f, g; cbn in *; by subst.
Qed.
Lemma legacy_tag_inj f g : fp_ok f → fp_ok g → legacy_tag f = legacy_tag g →
  fp_namespace f = fp_namespace g ∧ fp_value f = fp_value g.
Proof.
  intros (Ha&Hn&Hv) (Ha'&Hn'&Hv') E. unfold legacy_tag in E.
  apply app_inv_head in E. cbn [app s2l] in E.
  by apply (split_first DASH) in E as [E1 E]; [|by apply part_not|by apply part_not].
Qed.
Lemma legacy_not_versioned f g : fp_ok f → legacy_tag f ≠ tag g.
Proof.
  intros (Ha&Hn&Hv) E. unfold legacy_tag, tag in E. apply app_inv_head in E.
  assert (DOT ∈ fp_namespace f ++ s2l "-" ++ fp_value f) as H.
  { rewrite E. apply elem_of_app. right. left. }
  apply elem_of_app in H as [H|H]; [by apply (part_not DOT) in H|].
  apply elem_of_cons in H as [H|H]; [done|]. by apply (part_not DOT) in H.
Qed.
Lemma tag_chars f c : fp_ok f → c ∈ tag f → c ∈ part_chars ∨ c = DOT ∨ c = DASH.
Proof.
  intros (Ha&Hn&Hv) Hc. unfold tag in Hc.
  rewrite !elem_of_app in Hc.
  destruct Hc as [Hc|[Hc|[Hc|[Hc|[Hc|[Hc|[Hc|Hc]]]]]]].
  - apply elem_of_cons in Hc as [->|Hc]; [left; by apply part_char_spec|].
    apply elem_of_cons in Hc as [->|Hc]; [left; by apply part_char_spec|].
    apply elem_of_cons in Hc as [->|Hc]; [by right; right|by apply elem_of_nil in Hc].
  - left. by apply Ha.
  - apply elem_of_cons in Hc as [->|Hc]; [by right; left|by apply elem_of_nil in Hc].
  - apply show_Z_chars in Hc as [[H1 H2]|Hc]; [|by right; right].
    left. apply part_char_spec. unfold fp_part_char.
    rewrite !orb_true_iff, !andb_true_iff, !N.leb_le. lia.
  - apply elem_of_cons in Hc as [->|Hc]; [by right; left|by apply elem_of_nil in Hc].
  - left. by apply Hn.
  - apply elem_of_cons in Hc as [->|Hc]; [by right; right|by apply elem_of_nil in Hc].
  - left. by apply Hv.
Qed.
Lemma legacy_tag_chars f c : fp_ok f → c ∈ legacy_tag f → c ∈ part_chars ∨ c = DASH.
Proof.
  intros (Ha&Hn&Hv) Hc. unfold legacy_tag in Hc. rewrite !elem_of_app in Hc.
  destruct Hc as [Hc|[Hc|[Hc|Hc]]].
  - apply elem_of_cons in Hc as [->|Hc]; [left; by apply part_char_spec|].
    apply elem_of_cons in Hc as [->|Hc]; [left; by apply part_char_spec|].
    apply elem_of_cons in Hc as [->|Hc]; [by right|by apply elem_of_nil in Hc].
  - left. by apply Hn.
  - apply elem_of_cons in Hc as [->|Hc]; [by right|by apply elem_of_nil in Hc].
  - left. by apply Hv.
Qed.

Lemma good_of_chars p s : p = FINGERPRINT_PREFIX ++ s →
  (∀ c, c ∈ p → c ∈ part_chars ∨ c = DOT ∨ c = DASH) → good_fp_tag p.
Proof.
  intros -> Hc.
  assert (∀ c, c ∈ FINGERPRINT_PREFIX ++ s → c ≠ colon ∧ c ≠ space ∧ c ≠ newline ∧ is_ws c = false) as H.
  { assert (∀ c, c ∈ part_chars ++ [DOT; DASH] → c ≠ colon ∧ c ≠ space ∧ c ≠ newline ∧ is_ws c = false) as Hall.
    { apply Forall_forall. by_compute. }
    intros c Hin. apply Hall. apply elem_of_app. destruct (Hc c Hin) as [?|[->| ->]]; [by left|right; left|right; right; left]. }
  unfold good_fp_tag. split_and!.
  - done.
  - done.
  - split; [done|]. intros c Hin. destruct (H c Hin) as (?&?&_). done.
  - intros Hin. by destruct (H _ Hin) as (_&_&?&_).
  - intros c Hin. by destruct (H c Hin) as (_&_&_&?).
Qed.
Lemma good_tag f : fp_ok f → good_fp_tag (tag f).
Proof.
  intros Hf. eapply good_of_chars; [reflexivity|]. intros c Hc. by apply (tag_chars f).
Qed.
Lemma good_legacy_tag f : fp_ok f → good_fp_tag (legacy_tag f).
Proof.
  intros Hf. eapply good_of_chars; [reflexivity|]. intros c Hc. apply (legacy_tag_chars f) in Hc as [?|?]; [by left|by right; right|done].
Qed.

(** ** Fingerprints made by the builder *)
Lemma build_ok b : fp_part (fb_algorithm b) → fp_part (fb_namespace b) → fp_ok (builder_build b).
Proof. intros Ha Hn. split_and!; [done|done|apply into_base64_part]. Qed.
Lemma build_new_ok alg v ns b f : builder_new alg v ns = Ok b → fp_ok (builder_build (builder_with f b)).
Proof. intros (Ha&Hn&->)%builder_new_ok. by apply build_ok. Qed.

Definition fp_of (alg : str) (v : Z) (ns : str) (msg : list N) : fingerprint :=
  Fingerprint alg v ns (into_base64 msg).
Lemma fp_of_ok alg v ns msg : fp_part alg → fp_part ns → fp_ok (fp_of alg v ns msg).
Proof. intros Ha Hn. split_and!; [done|done|apply into_base64_part]. Qed.

Lemma five_fp r ns i f : five_fingerprint_v1 r ns i = Ok f ↔ fp_part ns ∧
  f = (fp_of (s2l "nwcsv5") 1 ns (five_message r i Self), fp_of (s2l "nwcsv5") 1 ns (five_message r i Peer)).
Proof.
  unfold five_fingerprint_v1. destruct (builder_new _ _ _) as [b| |] eqn:E; cbn [rbind].
  - apply builder_new_ok in E as (_&Hn&->). split.
    + intros H. injection H as <-. done.
    + intros [_ ->]. done.
  - split; [done|]. intros [Hn _]. unfold builder_new in E. apply fp_part_rx_spec in Hn. by rewrite Hn in E.
  - unfold builder_new in E. by repeat case_match.
Qed.
Lemma six_fp r ns i f : six_fingerprint_v1 r ns i = Ok f ↔ fp_part ns ∧
  f = (fp_of (s2l "nwcsv6") 1 ns (six_message r i Self), fp_of (s2l "nwcsv6") 1 ns (six_message r i Peer)).
Proof.
  unfold six_fingerprint_v1. destruct (builder_new _ _ _) as [b| |] eqn:E; cbn [rbind].
  - apply builder_new_ok in E as (_&Hn&->). split.
    + intros H. injection H as <-. done.
    + intros [_ ->]. done.
  - split; [done|]. intros [Hn _]. unfold builder_new in E. apply fp_part_rx_spec in Hn. by rewrite Hn in E.
  - unfold builder_new in E. by repeat case_match.
Qed.
Lemma legacy_fp r ns i h f : six_fingerprint_legacy r ns i h = Ok f ↔ fp_part ns ∧
  f = (fp_of [] 0 ns (legacy_message r i h.1), fp_of [] 0 ns (legacy_message r i h.2)).
Proof.
  unfold six_fingerprint_legacy. destruct (builder_new _ _ _) as [b| |] eqn:E; cbn [rbind].
  - apply builder_new_ok in E as (_&Hn&->). split.
    + intros H. injection H as <-. done.
    + intros [_ ->]. done.
  - split; [done|]. intros [Hn _]. unfold builder_new in E. apply fp_part_rx_spec in Hn. by rewrite Hn in E.
  - unfold builder_new in E. by repeat case_match.
Qed.
Lemma pp_fp db ns v r i : from_csv_record db ns v = Ok r →
  fp_part ns ∧ self_and_peer_fingerprints (pp_partial_fp (with_index i r)) =
  (fp_of (s2l "ppcsv") 1 ns (pp_message v i Self), fp_of (s2l "ppcsv") 1 ns (pp_message v i Peer)).
Proof.
  unfold from_csv_record. destruct (builder_new _ _ _) as [b| |] eqn:E; cbn [rbind]; [|done|done].
  apply builder_new_ok in E as (_&Hn&->). case_match; [|done].
  intros E. injection E as <-. split; [done|]. done.
Qed.

Lemma fp_of_inj alg v ns ns' m m' : fp_part alg → fp_part ns → fp_part ns' →
  tag (fp_of alg v ns m) = tag (fp_of alg v ns' m') → ns = ns' ∧ sha1 m = sha1 m'.
Proof.
  intros Ha Hn Hn' E. apply tag_inj in E; [|by apply fp_of_ok|by apply fp_of_ok].
  injection E as E1 E2. split; [done|]. by apply into_base64_inj.
Qed.
Lemma fp_of_legacy_inj ns ns' m m' : fp_part ns → fp_part ns' →
  legacy_tag (fp_of [] 0 ns m) = legacy_tag (fp_of [] 0 ns' m') → ns = ns' ∧ sha1 m = sha1 m'.
Proof.
  intros Hn Hn' E.
  assert (fp_part []) by (intros c Hc; by apply elem_of_nil in Hc).
  apply legacy_tag_inj in E as [E1 E2]; [|by apply fp_of_ok|by apply fp_of_ok].
  split; [done|]. by apply into_base64_inj.
Qed.

Lemma part_five : fp_part (s2l "nwcsv5"). Proof. by apply fp_part_rx_spec. Qed.
Lemma part_six : fp_part (s2l "nwcsv6"). Proof. by apply fp_part_rx_spec. Qed.
Lemma part_pp : fp_part (s2l "ppcsv"). Proof. by apply fp_part_rx_spec. Qed.
Lemma part_nil : fp_part []. Proof. by apply fp_part_rx_spec. Qed.

Lemma five_distinct r r' ns ns' i i' s s' f f' :
  five_ok r → five_ok r' → i32_ok i → i32_ok i' →
  five_fingerprint_v1 r ns i = Ok f → five_fingerprint_v1 r' ns' i' = Ok f' →
  tag (pick s f) = tag (pick s' f') →
  (r = r' ∧ ns = ns' ∧ i = i' ∧ s = s') ∨ sha1_collision (five_message r i s) (five_message r' i' s').
Proof.
  intros Hr Hr' Hi Hi' [Hn ->]%five_fp [Hn' ->]%five_fp E.
  assert (tag (fp_of (s2l "nwcsv5") 1 ns (five_message r i s)) = tag (fp_of (s2l "nwcsv5") 1 ns' (five_message r' i' s'))) as E'.
  { by destruct s, s'. }
  apply fp_of_inj in E' as [-> Eh]; [|apply part_five|done|done].
  destruct (decide (five_message r i s = five_message r' i' s')) as [Em|Em]; [|by right].
  apply five_message_inj in Em as (->&->&->); [|done..]. by left.
Qed.
Lemma six_distinct r r' ns ns' i i' s s' f f' :
  six_ok r → six_ok r' → i32_ok i → i32_ok i' →
  six_fingerprint_v1 r ns i = Ok f → six_fingerprint_v1 r' ns' i' = Ok f' →
  tag (pick s f) = tag (pick s' f') →
  (r = r' ∧ ns = ns' ∧ i = i' ∧ s = s') ∨ sha1_collision (six_message r i s) (six_message r' i' s').
Proof.
  intros Hr Hr' Hi Hi' [Hn ->]%six_fp [Hn' ->]%six_fp E.
  assert (tag (fp_of (s2l "nwcsv6") 1 ns (six_message r i s)) = tag (fp_of (s2l "nwcsv6") 1 ns' (six_message r' i' s'))) as E'.
  { by destruct s, s'. }
  apply fp_of_inj in E' as [-> Eh]; [|apply part_six|done|done].
  destruct (decide (six_message r i s = six_message r' i' s')) as [Em|Em]; [|by right].
  apply six_message_inj in Em as (->&->&->); [|done..]. by left.
Qed.
Lemma pp_distinct db ns ns' v v' r r' i i' s s' :
  pp_row_ok v → pp_row_ok v' → N.of_nat i < 2 ^ 64 → N.of_nat i' < 2 ^ 64 →
  from_csv_record db ns v = Ok r → from_csv_record db ns' v' = Ok r' →
  tag (pick s (self_and_peer_fingerprints (pp_partial_fp (with_index i r)))) =
    tag (pick s' (self_and_peer_fingerprints (pp_partial_fp (with_index i' r')))) →
  (pp_same_hashed v v' ∧ ns = ns' ∧ i = i' ∧ s = s') ∨ sha1_collision (pp_message v i s) (pp_message v' i' s').
Proof.
  intros Hr Hr' Hi Hi' Hv Hv' E.
  destruct (pp_fp db ns v r i Hv) as [Hn E1], (pp_fp db ns' v' r' i' Hv') as [Hn' E2].
  rewrite E1, E2 in E.
  assert (tag (fp_of (s2l "ppcsv") 1 ns (pp_message v i s)) = tag (fp_of (s2l "ppcsv") 1 ns' (pp_message v' i' s'))) as E'.
  { by destruct s, s'. }
  apply fp_of_inj in E' as [-> Eh]; [|apply part_pp|done|done].
  destruct (decide (pp_message v i s = pp_message v' i' s')) as [Em|Em]; [|by right].
  apply pp_message_inj in Em as (Hs&->&->); [|done..]. by left.
Qed.
Lemma legacy_distinct r r' ns ns' i i' h h' s s' f f' :
  six_ok r → six_ok r' → i32_ok i → i32_ok i' →
  (∀ s, str_ok (aa_account (pick s h)) ∧ amount_ok (aa_amount (pick s h))) →
  (∀ s, str_ok (aa_account (pick s h')) ∧ amount_ok (aa_amount (pick s h'))) →
  six_fingerprint_legacy r ns i h = Ok f → six_fingerprint_legacy r' ns' i' h' = Ok f' →
  legacy_tag (pick s f) = legacy_tag (pick s' f') →
  (r6_type r = r6_type r' ∧ r6_date r = r6_date r' ∧ r6_balance r = r6_balance r' ∧ i = i' ∧
   ns = ns' ∧ pick s h = pick s' h') ∨
  sha1_collision (legacy_message r i (pick s h)) (legacy_message r' i' (pick s' h')).
Proof.
  intros Hr Hr' Hi Hi' Hh Hh' [Hn ->]%legacy_fp [Hn' ->]%legacy_fp E.
  assert (legacy_tag (fp_of [] 0 ns (legacy_message r i (pick s h))) =
          legacy_tag (fp_of [] 0 ns' (legacy_message r' i' (pick s' h')))) as E'.
  { by destruct s, s'. }
  apply fp_of_legacy_inj in E' as [-> Eh]; [|done|done].
  destruct (decide (legacy_message r i (pick s h) = legacy_message r' i' (pick s' h'))) as [Em|Em]; [|by right].
  apply legacy_message_inj in Em as (?&?&?&?&?); [|done|done|done|done|apply Hh|apply Hh'|apply Hh|apply Hh'].
  by left.
Qed.

(** ** Self and peer *)
Lemma self_peer_distinct b s s' : fp_part (fb_algorithm b) → fp_part (fb_namespace b) →
  s ≠ s' → tag (pick s (self_and_peer_fingerprints b)) = tag (pick s' (self_and_peer_fingerprints b)) →
  sha1_collision (fb_acc b ++ with_str (side_name s) []) (fb_acc b ++ with_str (side_name s') []).
Proof.
  intros Ha Hn Hs E.
  assert (∀ s, pick s (self_and_peer_fingerprints b) =
    fp_of (fb_algorithm b) (fb_version b) (fb_namespace b) (fb_acc b ++ with_str (side_name s) [])) as Hp.
  { intros []; unfold self_and_peer_fingerprints, builder_build, builder_with, fp_of; cbn [pick fst snd fb_algorithm fb_version fb_namespace fb_acc];
      by rewrite (with_str_appends _ (fb_acc b)). }
  rewrite !Hp in E. apply fp_of_inj in E as [_ E]; [|done|done|done]. split; [|done].
  intros Em. apply app_inv_head in Em. apply app_eq_nil_r, with_str_pf in Em as [Em _]; [|apply side_str_ok|apply side_str_ok].
  by apply side_name_inj in Em.
Qed.

(** ** Namespaces *)
Lemma builder_new_total alg v ns :
  (fp_part alg → fp_part ns → ∃ b, builder_new alg v ns = Ok b) ∧
  (¬ (fp_part alg ∧ fp_part ns) → ∃ e, builder_new alg v ns = Err e).
Proof.
  rewrite <-!fp_part_rx_spec. unfold builder_new. destruct (fp_part_rx alg), (fp_part_rx ns); cbn; split; intros; eauto; try done.
  naive_solver.
Qed.
Lemma elem_of_take' {A} (x : A) n l : x ∈ take n l → x ∈ l.
Proof. intros H. rewrite <-(take_drop n l). apply elem_of_app. by left. Qed.
Lemma generated_ok name : ∃ ns, make_namespace NsGenerated name = Ok ns ∧ fp_part ns ∧ length ns = 8%nat.
Proof.
  eexists. split; [reflexivity|]. split.
  - intros c Hc. apply elem_of_take' in Hc. revert Hc. apply into_base64_part.
  - rewrite take_length, into_base64_length. done.
Qed.
Lemma builder_new_no_panic alg v ns : builder_new alg v ns ≠ Panic.
Proof. unfold builder_new. by repeat case_match. Qed.

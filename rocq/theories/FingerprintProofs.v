(** Lemmas about the byte encodings and the tags. *)
From stdpp Require Import list pretty.
From Verif Require Import Base Types Sha1 FingerprintModel NwCsvModel PaypalModel CommentClaims FingerprintClaims.
Local Open Scope N_scope.
From Coq Require Import Lia ZifyN.
Ltac Zify.zify_post_hook ::= Z.to_euclidean_division_equations.

(** ** Fixed width numbers *)
Lemma be_bytes_length k n : length (be_bytes k n) = k.
Proof. revert n. induction k as [|k IH]; intros n; cbn [be_bytes]; [done|]. rewrite app_length, IH. simpl. lia. Qed.
Lemma le_bytes_length k n : length (le_bytes k n) = k.
Proof. revert n. induction k as [|k IH]; intros n; cbn [le_bytes]; [done|]. simpl. by rewrite IH. Qed.

Lemma be_bytes_inj k a b : a < 256 ^ N.of_nat k → b < 256 ^ N.of_nat k → be_bytes k a = be_bytes k b → a = b.
Proof.
  revert a b. induction k as [|k IH]; intros a b Ha Hb E.
  - cbn in Ha, Hb. lia.
  - cbn [be_bytes] in E. apply app_inj_2 in E as [E1 E2]; [|done].
    injection E2 as E2.
    rewrite Nat2N.inj_succ, N.pow_succ_r' in Ha, Hb.
    assert (a / 256 = b / 256) as E3.
    { apply IH; [| |done]; apply N.div_lt_upper_bound; lia. }
    rewrite (N.div_mod' a 256), (N.div_mod' b 256). lia.
Qed.
Lemma le_bytes_inj k a b : a < 256 ^ N.of_nat k → b < 256 ^ N.of_nat k → le_bytes k a = le_bytes k b → a = b.
Proof.
  revert a b. induction k as [|k IH]; intros a b Ha Hb E.
  - cbn in Ha, Hb. lia.
  - cbn [le_bytes] in E. injection E as E1 E2.
    rewrite Nat2N.inj_succ, N.pow_succ_r' in Ha, Hb.
    assert (a / 256 = b / 256) as E3.
    { apply IH; [| |done]; apply N.div_lt_upper_bound; lia. }
    rewrite (N.div_mod' a 256), (N.div_mod' b 256). lia.
Qed.

(** ** Self delimiting encodings *)
(** [f] appends an encoding of a value; two values followed by anything are
    distinguished. *)
Definition appends {A} (f : A → accumulator → accumulator) : Prop :=
  ∀ x acc, f x acc = acc ++ f x [].
Definition prefix_free {A} (P : A → Prop) (f : A → accumulator → accumulator) : Prop :=
  ∀ x y r r', P x → P y → f x [] ++ r = f y [] ++ r' → x = y ∧ r = r'.

Lemma with_bytes_appends : appends with_bytes.
Proof. intros x acc. done. Qed.

Lemma be_prefix k x y r r' : x < 256 ^ N.of_nat k → y < 256 ^ N.of_nat k →
  be_bytes k x ++ r = be_bytes k y ++ r' → x = y ∧ r = r'.
Proof.
  intros Hx Hy E. apply app_inj_1 in E as [E ->]; [|by rewrite !be_bytes_length].
  split; [|done]. by eapply be_bytes_inj.
Qed.

Lemma with_u8_pf : prefix_free (λ n, n < 256) with_u8.
Proof. intros x y r r' Hx Hy E. by apply (be_prefix 1) in E. Qed.
Lemma with_u32_pf : prefix_free (λ n, n < 2 ^ 32) with_u32.
Proof. intros x y r r' Hx Hy E. by apply (be_prefix 4) in E. Qed.
Lemma with_u64_pf : prefix_free (λ n, n < 2 ^ 64) with_u64.
Proof. intros x y r r' Hx Hy E. by apply (be_prefix 8) in E. Qed.
Lemma with_i32_pf : prefix_free i32_ok with_i32.
Proof.
  intros x y r r' Hx Hy E. unfold i32_ok in *. apply (be_prefix 4) in E as [E ->].
  - split; [|done]. lia.
  - simpl. lia.
  - simpl. lia.
Qed.

(** ** Text *)
Lemma utf8_bytes1_length c : N.of_nat (length (utf8_bytes1 c)) = utf8_len1 c.
Proof. unfold utf8_bytes1, utf8_len1. repeat case_match; done. Qed.
Lemma utf8_bytes_cons c s : utf8_bytes (c :: s) = utf8_bytes1 c ++ utf8_bytes s.
Proof. done. Qed.
Lemma utf8_bytes_length s : N.of_nat (length (utf8_bytes s)) = utf8_len s.
Proof.
  induction s as [|c s IH]; [done|].
  rewrite utf8_bytes_cons, app_length, Nat2N.inj_add, IH, utf8_bytes1_length. done.
Qed.
Lemma utf8_bytes1_ne c : utf8_bytes1 c ≠ [].
Proof. unfold utf8_bytes1. repeat case_match; done. Qed.
Lemma utf8_bytes1_prefix c c' r r' : c < 1114112 → c' < 1114112 →
  utf8_bytes1 c ++ r = utf8_bytes1 c' ++ r' → c = c' ∧ r = r'.
Proof.
  intros Hc Hc'. unfold utf8_bytes1.
  destruct (N.ltb_spec c 128), (N.ltb_spec c' 128);
  try destruct (N.ltb_spec c 2048); try destruct (N.ltb_spec c' 2048);
  try destruct (N.ltb_spec c 65536); try destruct (N.ltb_spec c' 65536); try lia;
  cbn [app]; intros E; injection E; intros; (split; [lia|]); first [done|exfalso; lia|idtac].
Qed.
Lemma utf8_bytes_inj s s' : (∀ c, c ∈ s → c < 1114112) → (∀ c, c ∈ s' → c < 1114112) →
  utf8_bytes s = utf8_bytes s' → s = s'.
Proof.
  revert s'. induction s as [|c s IH]; intros [|c' s'] Hs Hs' E.
  - done.
  - rewrite utf8_bytes_cons in E. symmetry in E. apply app_nil in E as [E _]. by apply utf8_bytes1_ne in E.
  - rewrite utf8_bytes_cons in E. apply app_nil in E as [E _]. by apply utf8_bytes1_ne in E.
  - rewrite !utf8_bytes_cons in E. apply utf8_bytes1_prefix in E as [-> E].
    + f_equal. apply IH; [| |done].
      * intros d Hd. apply Hs. by right.
      * intros d Hd. apply Hs'. by right.
    + apply Hs. left.
    + apply Hs'. left.
Qed.

Lemma with_str_app s acc : with_str s acc = acc ++ be_bytes 8 (utf8_len s) ++ utf8_bytes s.
Proof. unfold with_str, with_usize, with_u64, with_bytes. by rewrite <-app_assoc. Qed.
Lemma with_str_appends : appends with_str.
Proof. intros s acc. by rewrite !with_str_app. Qed.
Lemma with_str_pf : prefix_free str_ok with_str.
Proof.
  intros x y r r' [Hx Hlx] [Hy Hly] E. rewrite !with_str_app in E. cbn [app] in E.
  rewrite <-!app_assoc in E. apply (be_prefix 8) in E as [El E]; [|done|done].
  apply app_inj_1 in E as [E ->].
  - split; [|done]. by apply utf8_bytes_inj.
  - apply Nat2N.inj. by rewrite !utf8_bytes_length.
Qed.

(** ** Dates, times, amounts, options *)
Lemma with_i32_appends : appends with_i32. Proof. intros x acc. done. Qed.
Lemma with_u32_appends : appends with_u32. Proof. intros x acc. done. Qed.
Lemma with_u64_appends : appends with_u64. Proof. intros x acc. done. Qed.
Lemma with_u8_appends : appends with_u8. Proof. intros x acc. done. Qed.

Lemma with_date_app d acc : with_date d acc =
  acc ++ with_usize 12 [] ++ with_i32 d.1.1 [] ++ with_u32 d.1.2 [] ++ with_u32 d.2 [].
Proof.
  destruct d as [[y m] d]. unfold with_date. cbn [fst snd].
  unfold with_u32, with_i32, with_usize, with_u64, with_bytes. rewrite <-!app_assoc. done.
Qed.
Lemma with_date_appends : appends with_date.
Proof. intros x acc. by rewrite !with_date_app. Qed.
Lemma with_date_pf : prefix_free date_ok with_date.
Proof.
  intros x y r r' Hx Hy E. rewrite !with_date_app in E. cbn [app] in E. rewrite <-!app_assoc in E.
  destruct x as [[y1 m1] d1], y as [[y2 m2] d2]. cbn [fst snd] in E. unfold date_ok in Hx, Hy.
  apply with_u64_pf in E as [_ E]; [|done|done].
  apply with_i32_pf in E as [-> E]; [|unfold i32_ok; lia|unfold i32_ok; lia].
  apply with_u32_pf in E as [-> E]; [|lia|lia].
  apply with_u32_pf in E as [-> E]; [|lia|lia]. done.
Qed.

Lemma with_time_app t acc : with_time t acc =
  acc ++ with_usize 16 [] ++ with_u32 t.1.1.1 [] ++ with_u32 t.1.1.2 [] ++ with_u32 t.1.2 [] ++ with_u32 t.2 [].
Proof.
  destruct t as [[[h m] s] n]. unfold with_time. cbn [fst snd].
  unfold with_u32, with_usize, with_u64, with_bytes. rewrite <-!app_assoc. done.
Qed.
Lemma with_time_appends : appends with_time.
Proof. intros x acc. by rewrite !with_time_app. Qed.
Lemma with_time_pf : prefix_free time_ok with_time.
Proof.
  intros x y r r' Hx Hy E. rewrite !with_time_app in E. cbn [app] in E. rewrite <-!app_assoc in E.
  destruct x as [[[h1 m1] s1] n1], y as [[[h2 m2] s2] n2]. cbn [fst snd] in E. unfold time_ok in Hx, Hy.
  apply with_u64_pf in E as [_ E]; [|done|done].
  apply with_u32_pf in E as [-> E]; [|lia|lia].
  apply with_u32_pf in E as [-> E]; [|lia|lia].
  apply with_u32_pf in E as [-> E]; [|lia|lia].
  apply with_u32_pf in E as [-> E]; [|lia|lia]. done.
Qed.

Lemma dec_serialize_length d : length (dec_serialize d) = 16%nat.
Proof. unfold dec_serialize. rewrite app_length, le_bytes_length. done. Qed.
Lemma dec_serialize_inj a b : dec_ok a → dec_ok b → dec_serialize a = dec_serialize b → a = b.
Proof.
  intros [Hsa Hma] [Hsb Hmb] E. unfold dec_serialize in E.
  apply app_inj_1 in E as [E E3]; [|done]. injection E as E1 E2. apply (le_bytes_inj 12) in E3; [|done|done].
  destruct a as [na sa ma], b as [nb sb mb]. cbn in *. f_equal; [|lia|done].
  destruct na, nb; done.
Qed.
Definition pos_byte (p : commodity_position) : N := match p with PosLeft => 1 | PosRight => 2 end.
Lemma with_amount_app a acc : with_amount a acc =
  acc ++ with_usize (17 + utf8_len (cm_name (a_commodity a))) [] ++ dec_serialize (a_quantity a)
  ++ with_u8 (pos_byte (cm_pos (a_commodity a))) [] ++ with_str (cm_name (a_commodity a)) [].
Proof.
  unfold with_amount. rewrite !with_str_app. unfold with_usize, with_u64, with_u8, with_bytes, pos_byte.
  rewrite <-!app_assoc. cbn [app]. done.
Qed.
Lemma with_amount_appends : appends with_amount.
Proof. intros x acc. by rewrite !with_amount_app. Qed.
Lemma with_amount_pf : prefix_free amount_ok with_amount.
Proof.
  intros x y r r' [Hx Hsx] [Hy Hsy] E. rewrite !with_amount_app in E. cbn [app] in E. rewrite <-!app_assoc in E.
  apply app_inj_1 in E as [_ E]; [|unfold with_usize, with_u64, with_bytes; cbn [app]; by rewrite !be_bytes_length].
  apply app_inj_1 in E as [E1 E]; [|by rewrite !dec_serialize_length].
  apply dec_serialize_inj in E1; [|done|done].
  apply with_u8_pf in E as [E2 E]; [|unfold pos_byte; by case_match|unfold pos_byte; by case_match].
  apply with_str_pf in E as [E3 E]; [|done|done].
  split; [|done]. destruct x as [qx [nx px]], y as [qy [ny py]]. cbn in *. subst.
  destruct px, py; done.
Qed.

Lemma with_option_appends {A} (f : A → accumulator → accumulator) : appends f → appends (with_option f).
Proof.
  intros Hf [x|] acc; unfold with_option; [|apply with_u8_appends].
  rewrite (Hf x (with_u8 1 acc)), (Hf x (with_u8 1 [])), (with_u8_appends 1 acc).
  by rewrite <-app_assoc.
Qed.
Lemma with_option_pf {A} P (f : A → accumulator → accumulator) : appends f → prefix_free P f →
  prefix_free (opt_ok P) (with_option f).
Proof.
  intros Hf Hpf [x|] [y|] r r' Hx Hy E; unfold with_option in E.
  - rewrite (Hf x), (Hf y) in E. rewrite <-!app_assoc in E.
    apply with_u8_pf in E as [_ E]; [|done|done].
    apply Hpf in E as [-> E]; [done|by apply Hx|by apply Hy].
  - rewrite (Hf x) in E. rewrite <-!app_assoc in E. by apply with_u8_pf in E as [? E].
  - rewrite (Hf y) in E. rewrite <-!app_assoc in E. by apply with_u8_pf in E as [? E].
  - apply with_u8_pf in E as [_ E]; done.
Qed.

(** ** Hashed messages *)
Lemma side_str_ok s : str_ok (side_name s).
Proof. destruct s; (split; [|done]); intros c Hc; repeat (apply elem_of_cons in Hc as [->|Hc]; [done|]); by apply elem_of_nil in Hc. Qed.
Lemma side_name_inj s s' : side_name s = side_name s' → s = s'.
Proof. destruct s, s'; done. Qed.

Lemma appends_cons {A} (f : A → accumulator → accumulator) x acc : appends f → f x acc = acc ++ f x [].
Proof. intros H. apply H. Qed.

Ltac flatten E :=
  repeat first
    [ rewrite (with_str_appends _ (_ _ _)) in E
    | rewrite (with_date_appends _ (_ _ _)) in E
    | rewrite (with_time_appends _ (_ _ _)) in E
    | rewrite (with_i32_appends _ (_ _ _)) in E
    | rewrite (with_u64_appends _ (_ _ _)) in E
    | rewrite (with_amount_appends _ (_ _ _)) in E
    | rewrite (with_option_appends _ with_amount_appends _ (_ _ _)) in E
    | rewrite (with_option_appends _ with_str_appends _ (_ _ _)) in E ];
  rewrite <-?app_assoc in E.

Lemma app_eq_nil_r {A} (x y : list A) : x = y → x ++ [] = y ++ [].
Proof. by intros ->. Qed.

Lemma five_message_inj r r' i i' s s' : five_ok r → five_ok r' → i32_ok i → i32_ok i' →
  five_message r i s = five_message r' i' s' → r = r' ∧ i = i' ∧ s = s'.
Proof.
  intros (?&?&?&?&?) (?&?&?&?&?) ?? E. unfold five_message in E. apply app_eq_nil_r in E. flatten E.
  apply with_date_pf in E as [E1 E]; [|done|done].
  apply with_i32_pf in E as [E2 E]; [|done|done].
  apply with_str_pf in E as [E3 E]; [|done|done].
  apply with_str_pf in E as [E4 E]; [|done|done].
  apply (with_option_pf _ _ with_amount_appends with_amount_pf) in E as [E5 E]; [|done|done].
  apply (with_option_pf _ _ with_amount_appends with_amount_pf) in E as [E6 E]; [|done|done].
  apply with_str_pf in E as [E7 E]; [|apply side_str_ok|apply side_str_ok].
  apply side_name_inj in E7. destruct r, r'; cbn in *; by subst.
Qed.
Lemma six_message_inj r r' i i' s s' : six_ok r → six_ok r' → i32_ok i → i32_ok i' →
  six_message r i s = six_message r' i' s' → r = r' ∧ i = i' ∧ s = s'.
Proof.
  intros (?&?&?&?&?&?) (?&?&?&?&?&?) ?? E. unfold six_message in E. apply app_eq_nil_r in E. flatten E.
  apply with_str_pf in E as [E1 E]; [|done|done].
  apply with_date_pf in E as [E2 E]; [|done|done].
  apply with_i32_pf in E as [E3 E]; [|done|done].
  apply with_str_pf in E as [E4 E]; [|done|done].
  apply (with_option_pf _ _ with_amount_appends with_amount_pf) in E as [E5 E]; [|done|done].
  apply (with_option_pf _ _ with_amount_appends with_amount_pf) in E as [E6 E]; [|done|done].
  apply with_amount_pf in E as [E7 E]; [|done|done].
  apply with_str_pf in E as [E8 E]; [|apply side_str_ok|apply side_str_ok].
  apply side_name_inj in E8. destruct r, r'; cbn in *; by subst.
Qed.
Lemma legacy_message_inj r r' i i' h h' : six_ok r → six_ok r' → i32_ok i → i32_ok i' →
  str_ok (aa_account h) → str_ok (aa_account h') → amount_ok (aa_amount h) → amount_ok (aa_amount h') →
  legacy_message r i h = legacy_message r' i' h' →
  r6_type r = r6_type r' ∧ r6_date r = r6_date r' ∧ r6_balance r = r6_balance r' ∧ i = i' ∧ h = h'.
Proof.
  intros (?&?&?&?&?&?) (?&?&?&?&?&?) ?????? E. unfold legacy_message in E. apply app_eq_nil_r in E. flatten E.
  apply with_str_pf in E as [E1 E]; [|done|done].
  apply with_date_pf in E as [E2 E]; [|done|done].
  apply app_inv_head in E.
  apply with_amount_pf in E as [E3 E]; [|done|done].
  apply with_i32_pf in E as [E4 E]; [|done|done].
  apply with_str_pf in E as [E5 E]; [|done|done].
  apply with_amount_pf in E as [E6 E]; [|done|done].
  destruct h, h'; cbn in *; by subst.
Qed.
Lemma pp_message_inj r r' i i' s s' : pp_row_ok r → pp_row_ok r' →
  N.of_nat i < 2 ^ 64 → N.of_nat i' < 2 ^ 64 →
  pp_message r i s = pp_message r' i' s' → pp_same_hashed r r' ∧ i = i' ∧ s = s'.
Proof.
  intros (?&?&?&?&?&?&?&?) (?&?&?&?&?&?&?&?) ?? E. unfold pp_message, with_usize in E. apply app_eq_nil_r in E. flatten E.
  apply with_date_pf in E as [E1 E]; [|done|done].
  apply with_time_pf in E as [E2 E]; [|done|done].
  apply with_str_pf in E as [E3 E]; [|done|done].
  apply (with_option_pf _ _ with_str_appends with_str_pf) in E as [E4 E]; [|done|done].
  apply with_str_pf in E as [E5 E]; [|done|done].
  apply with_amount_pf in E as [E6 E]; [|done|done].
  apply with_amount_pf in E as [E7 E]; [|done|done].
  apply with_u64_pf in E as [E8 E]; [|done|done].
  apply with_str_pf in E as [E9 E]; [|apply side_str_ok|apply side_str_ok].
  apply side_name_inj in E9. apply Nat2N.inj in E8. injection E6 as ??. injection E7 as ??.
  split; [|done]. by unfold pp_same_hashed.
Qed.

(** ** Digests and base64 *)
Lemma be_bytes_lt k n : ∀ b, b ∈ be_bytes k n → b < 256.
Proof.
  revert n. induction k as [|k IH]; intros n b Hb; cbn [be_bytes] in Hb.
  - by apply elem_of_nil in Hb.
  - apply elem_of_app in Hb as [Hb|Hb]; [by eapply IH|].
    apply elem_of_list_singleton in Hb as ->. apply N.mod_lt. done.
Qed.
Lemma sha1_shape m : length (sha1 m) = 20%nat ∧ ∀ b, b ∈ sha1 m → b < 256.
Proof.
  unfold sha1. destruct (foldl _ _ _) as [[[[a b] c] d] e]. split.
  - rewrite !app_length, !be_bytes_length. done.
  - intros x Hx. repeat (apply elem_of_app in Hx as [Hx|Hx]; [by eapply be_bytes_lt|]).
    by eapply be_bytes_lt.
Qed.
Lemma b64_char_inj a b : a < 64 → b < 64 → b64_char a = b64_char b → a = b.
Proof.
  intros Ha Hb. unfold b64_char.
  destruct (N.ltb_spec a 26), (N.ltb_spec b 26); try lia;
  destruct (N.ltb_spec a 52), (N.ltb_spec b 52); try lia;
  destruct (N.ltb_spec a 62), (N.ltb_spec b 62); try lia;
  destruct (N.eqb_spec a 62), (N.eqb_spec b 62); lia.
Qed.
Lemma cons_inj {A} (x y : A) l k : x :: l = y :: k → x = y ∧ l = k.
Proof. intros E. by injection E. Qed.
Lemma base64_inj l l' : length l = length l' → (∀ b, b ∈ l → b < 256) → (∀ b, b ∈ l' → b < 256) →
  base64 l = base64 l' → l = l'.
Proof.
  remember (length l) as n eqn:Hn. revert l l' Hn.
  induction (lt_wf n) as [n _ IH]. intros l l' Hn Hn' Hl Hl' E.
  destruct l as [|a [|b [|c l]]], l' as [|a' [|b' [|c' l']]]; cbn [length] in *; try lia; [done|..].
  - cbn [base64] in E. apply cons_inj in E as [E1 E]. apply cons_inj in E as [E2 _].
    pose proof (Hl a ltac:(left)). pose proof (Hl' a' ltac:(left)).
    apply b64_char_inj in E1; [|lia|lia]. apply b64_char_inj in E2; [|lia|lia].
    f_equal. lia.
  - cbn [base64] in E. apply cons_inj in E as [E1 E]. apply cons_inj in E as [E2 E]. apply cons_inj in E as [E3 _].
    pose proof (Hl a ltac:(left)). pose proof (Hl' a' ltac:(left)).
    pose proof (Hl b ltac:(right; left)). pose proof (Hl' b' ltac:(right; left)).
    apply b64_char_inj in E1; [|lia|lia]. apply b64_char_inj in E2; [|lia|lia]. apply b64_char_inj in E3; [|lia|lia].
    assert (a = a') as -> by lia. assert (b = b') as -> by lia. done.
  - cbn [base64] in E. apply cons_inj in E as [E1 E]. apply cons_inj in E as [E2 E]. apply cons_inj in E as [E3 E]. apply cons_inj in E as [E4 E5].
    pose proof (Hl a ltac:(left)). pose proof (Hl' a' ltac:(left)).
    pose proof (Hl b ltac:(right; left)). pose proof (Hl' b' ltac:(right; left)).
    pose proof (Hl c ltac:(right; right; left)). pose proof (Hl' c' ltac:(right; right; left)).
    apply b64_char_inj in E1; [|lia|lia]. apply b64_char_inj in E2; [|lia|lia].
    apply b64_char_inj in E3; [|lia|lia]. apply b64_char_inj in E4; [|lia|lia].
    assert (a = a') as -> by lia. assert (b = b') as -> by lia. assert (c = c') as -> by lia.
    do 3 f_equal. apply (IH (length l)); [lia|done|lia| | |done].
    + intros d Hd. apply Hl. by do 3 right.
    + intros d Hd. apply Hl'. by do 3 right.
Qed.
Lemma into_base64_inj a b : into_base64 a = into_base64 b → sha1 a = sha1 b.
Proof.
  unfold into_base64. intros E. destruct (sha1_shape a) as [La Ba], (sha1_shape b) as [Lb Bb].
  apply base64_inj; [congruence|done|done|done].
Qed.

(** ** Parts of a tag *)
Lemma part_char_spec c : fp_part_char c = true ↔ c ∈ part_chars.
Proof.
  split.
  - intros H. assert (c < 128) as Hc.
    { unfold fp_part_char in H. rewrite !orb_true_iff, !andb_true_iff, !N.leb_le, !N.eqb_eq in H. lia. }
    revert H. generalize c Hc. clear.
    assert (∀ n : nat, (n < 128)%nat → fp_part_char (N.of_nat n) = true → N.of_nat n ∈ part_chars) as Hall.
    { intros n Hn.
      assert (forallb (λ n, negb (fp_part_char (N.of_nat n)) || bool_decide (N.of_nat n ∈ part_chars)) (seq 0 128) = true) as Hf.
      { vm_compute. reflexivity. }
      rewrite forallb_forall in Hf. specialize (Hf n). rewrite in_seq in Hf.
      specialize (Hf ltac:(lia)). intros Hp. rewrite Hp in Hf. cbn [negb orb] in Hf.
      by apply bool_decide_eq_true in Hf. }
    intros c Hc Hp. rewrite <-(N2Nat.id c). apply Hall; [lia|]. by rewrite N2Nat.id.
  - intros H.
    assert (forallb fp_part_char part_chars = true) as Hf by (vm_compute; reflexivity).
    rewrite forallb_forall in Hf. apply Hf. by apply elem_of_list_In.
Qed.
Lemma fp_part_rx_spec s : fp_part_rx s = true ↔ fp_part s.
Proof.
  unfold fp_part_rx, fp_part. rewrite forallb_forall. split; intros H c Hc.
  - apply part_char_spec, H. by apply elem_of_list_In.
  - apply part_char_spec, H. by apply elem_of_list_In.
Qed.
Lemma builder_new_spec alg v ns : builder_new alg v ns =
  if bool_decide (fp_part_rx alg = true) then
    if bool_decide (fp_part_rx ns = true) then Ok (Builder [] alg v ns) else Err EBadNamespace
  else Err EBadAlgorithm.
Proof. unfold builder_new. by destruct (fp_part_rx alg), (fp_part_rx ns). Qed.
Lemma builder_new_ok alg v ns b : builder_new alg v ns = Ok b ↔
  fp_part alg ∧ fp_part ns ∧ b = Builder [] alg v ns.
Proof.
  rewrite <-!fp_part_rx_spec. unfold builder_new. destruct (fp_part_rx alg), (fp_part_rx ns); cbn; split; intros H;
    try done; try (destruct H as (?&?&?); done).
  - by injection H as <-.
  - by destruct H as (_&_&->).
Qed.

Lemma b64_char_part n : n < 64 → b64_char n ∈ part_chars.
Proof.
  intros Hn. apply part_char_spec. unfold b64_char, fp_part_char.
  rewrite !orb_true_iff, !andb_true_iff, !N.leb_le, !N.eqb_eq.
  destruct (N.ltb_spec n 26); [lia|]. destruct (N.ltb_spec n 52); [lia|].
  destruct (N.ltb_spec n 62); [lia|]. destruct (N.eqb_spec n 62); lia.
Qed.
Lemma base64_part l : (∀ b, b ∈ l → b < 256) → fp_part (base64 l).
Proof.
  remember (length l) as n eqn:Hn. revert l Hn.
  induction (lt_wf n) as [n _ IH]. intros l Hn Hl.
  destruct l as [|a [|b [|c l]]]; cbn [base64]; cbn [length] in Hn.
  - intros x Hx. by apply elem_of_nil in Hx.
  - pose proof (Hl a ltac:(left)).
    intros x Hx. repeat (apply elem_of_cons in Hx as [->|Hx]; [apply b64_char_part; lia|]). by apply elem_of_nil in Hx.
  - pose proof (Hl a ltac:(left)). pose proof (Hl b ltac:(right; left)).
    intros x Hx. repeat (apply elem_of_cons in Hx as [->|Hx]; [apply b64_char_part; lia|]). by apply elem_of_nil in Hx.
  - pose proof (Hl a ltac:(left)). pose proof (Hl b ltac:(right; left)). pose proof (Hl c ltac:(right; right; left)).
    intros x Hx. do 4 (apply elem_of_cons in Hx as [->|Hx]; [apply b64_char_part; lia|]).
    eapply (IH (length l)); [lia|done| |done]. intros d Hd. apply Hl. by do 3 right.
Qed.
Lemma into_base64_part a : fp_part (into_base64 a).
Proof. apply base64_part, sha1_shape. Qed.
Lemma base64_length_3 l : (length (base64 l) = length l / 3 * 4 + match length l mod 3 with 0 => 0 | 1 => 2 | _ => 3 end)%nat.
Proof.
  remember (length l) as n eqn:Hn. revert l Hn. induction (lt_wf n) as [n _ IH]. intros l Hn.
  destruct l as [|a [|b [|c l]]]; cbn [base64]; cbn [length] in Hn |- *; subst n; try done.
  rewrite (IH (length l) ltac:(lia) l eq_refl).
  replace (S (S (S (length l)))) with (length l + 1 * 3)%nat by lia.
  rewrite Nat.div_add, Nat.mod_add by done. lia.
Qed.
Lemma into_base64_length a : length (into_base64 a) = 27%nat.
Proof. unfold into_base64. rewrite base64_length_3. rewrite (proj1 (sha1_shape a)). done. Qed.

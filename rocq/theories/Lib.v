(** Proofs about library functions. *)
From Verif Require Import Base Sha1 BaseProofs CommentClaims StrProofs FingerprintProofs LibClaims.
From Coq Require Import Lia.
Local Open Scope N_scope.

Lemma starts_with_spec p s : starts_with p s = true ↔ ∃ r, s = p ++ r.
Proof.
  revert s. induction p as [|x p IH]; intros s; cbn [starts_with]; [split; [by exists s|done]|]. destruct s as [|y s].
  - split; [done|]. by intros [r ?].
  - rewrite andb_true_iff, IH, N.eqb_eq. split; [intros [-> [r ->]]; by exists r|]. intros [r E]. injection E as -> ->. split; [done|by exists r].
Qed.
Lemma contains_spec p s : contains p s = true ↔ ∃ a b, s = a ++ p ++ b.
Proof.
  induction s as [|c s IH]; cbn [contains]; rewrite orb_true_iff, starts_with_spec.
  - split; [intros [[r E]|?]; [|done]; by exists [], r|]. intros (a & b & E). left. destruct a; [|done]. by exists b.
  - rewrite IH. split; [intros [[r E]|(a & b & ->)]; [by exists [], r|by exists (c :: a), b]|].
    intros ([|c' a] & b & E); [left; by exists b|]. injection E as -> ->. right. by exists a, b.
Qed.
Lemma is_ws_list c : is_ws c = true ↔ c ∈ [9; 10; 11; 12; 13; 32; 133; 160; 5760; 8192; 8193; 8194; 8195; 8196; 8197;
  8198; 8199; 8200; 8201; 8202; 8232; 8233; 8239; 8287; 12288].
Proof.
  unfold is_ws. rewrite !orb_true_iff, !andb_true_iff, !N.leb_le, !N.eqb_eq, !elem_of_cons, elem_of_nil. lia.
Qed.
Lemma trim_unique s t : t = trim s ↔
  (∃ a b, s = a ++ t ++ b ∧ (∀ c, c ∈ a ++ b → is_ws c = true)) ∧
  (∀ c u, t = c :: u → is_ws c = false) ∧ ∀ c u, t = u ++ [c] → is_ws c = false.
Proof.
  assert (∀ t, (∀ c u, t = c :: u → is_ws c = false) → (∀ c u, t = u ++ [c] → is_ws c = false) → t ≠ [] → ∀ a b,
    (∀ c, c ∈ a → is_ws c = true) → (∀ c, c ∈ b → is_ws c = true) → trim (a ++ t ++ b) = t) as Hgen.
  { clear. intros t H1 H2 Hne a b Ha Hb. unfold trim. rewrite drop_while_app by (by apply Forall_forall).
    destruct t as [|x t]; [done|]. cbn [app]. rewrite drop_while_id by (by eapply H1). rewrite app_comm_cons.
    rewrite drop_while_end_app by (by apply Forall_forall). destruct (exists_last (l := x :: t)) as (u & y & E); [done|]. rewrite E. apply drop_while_end_id. by eapply H2. }
  split.
  - intros ->. destruct (trim_split s) as (a & b & E & Ha & Hb). rewrite Forall_forall in Ha, Hb. split.
    + exists a, b. split; [done|]. intros c [?|?]%elem_of_app; auto.
    + destruct (trim_is_bare s) as [->|(_ & H1 & H2)]; [|done]. split; [done|]. intros c u E'. symmetry in E'. by apply app_nil in E' as [_ ?].
  - intros ((a & b & -> & Hw) & H1 & H2). destruct t as [|x t].
    + symmetry. apply trim_nil_iff, Forall_forall. cbn [app]. done.
    + symmetry. apply Hgen; [done..| |]; intros c Hc; apply Hw, elem_of_app; auto.
Qed.

Lemma split_unique c s l : l = split_on c s ↔ l ≠ [] ∧ (∀ p, p ∈ l → c ∉ p) ∧ join [c] l = s.
Proof.
  split.
  - intros ->. split; [apply split_on_nonempty|]. split; [intros p; apply split_on_elem|apply join_split].
  - intros (H1 & H2 & <-). symmetry. apply split_join; [done|]. by apply Forall_forall.
Qed.
Lemma join_spec sep l : join sep l = match l with [] => [] | x :: l => x ++ (l ≫= λ y, sep ++ y) end.
Proof.
  destruct l as [|x l]; [done|]. revert x. induction l as [|y l IH]; intros x; [cbn; by rewrite app_nil_r|].
  change (join sep (x :: y :: l)) with (x ++ sep ++ join sep (y :: l)). by rewrite IH, bind_cons, <- app_assoc.
Qed.

(** * Sorting *)
Lemma sorted_same_classes {A} (leb : A → A → bool) l k :
  (∀ x y, leb x y = true ∨ leb y x = true) →
  StronglySorted (λ x y, leb x y = true) l → StronglySorted (λ x y, leb x y = true) k → l ≡ₚ k →
  (∀ x, filter (λ y, leb x y = true ∧ leb y x = true) l = filter (λ y, leb x y = true ∧ leb y x = true) k) → l = k.
Proof.
  intros Ht. assert (∀ x, leb x x = true) as Hr by (intros x; by destruct (Ht x x)).
  revert k. induction l as [|x l IH]; intros k Hl Hk Hp Hf; [by apply Permutation_nil_l in Hp|].
  destruct k as [|y k]; [by apply Permutation_nil_r in Hp|].
  apply StronglySorted_inv in Hl as [Hl Hx]. apply StronglySorted_inv in Hk as [Hk Hy]. rewrite Forall_forall in Hx, Hy.
  assert (leb x y = true) as L1.
  { assert (y ∈ x :: l) as [->|?]%elem_of_cons by (rewrite Hp; left); auto. }
  assert (leb y x = true) as L2.
  { assert (x ∈ y :: k) as [->|?]%elem_of_cons by (rewrite <- Hp; left); auto. }
  assert (x = y) as ->. { specialize (Hf x). rewrite !filter_cons_True in Hf by auto. by injection Hf. }
  f_equal. apply IH; [done..|by apply Permutation_cons_inv in Hp|]. intros z. specialize (Hf z). rewrite !filter_cons in Hf. destruct (decide _); [by injection Hf|done].
Qed.
Lemma stable_sort_spec {A} (leb : A → A → bool) l k :
  (∀ x y, leb x y = true ∨ leb y x = true) → (∀ x y z, leb x y = true → leb y z = true → leb x z = true) →
  k = stable_sort leb l ↔
  StronglySorted (λ x y, leb x y = true) k ∧ k ≡ₚ l ∧
  ∀ x, filter (λ y, leb x y = true ∧ leb y x = true) k = filter (λ y, leb x y = true ∧ leb y x = true) l.
Proof.
  intros Ht Htr.
  assert (∀ x, filter (λ y, leb x y = true ∧ leb y x = true) (stable_sort leb l) = filter (λ y, leb x y = true ∧ leb y x = true) l) as Hc.
  { intros x. apply stable_sort_filter. intros a b [? ?] [? ?]. eauto. }
  split.
  - intros ->. split; [by apply stable_sort_sorted|]. split; [apply stable_sort_perm|done].
  - intros (H1 & H2 & H3). apply (sorted_same_classes leb); [done..|by apply stable_sort_sorted|by rewrite stable_sort_perm|].
    intros x. by rewrite H3, Hc.
Qed.

(** * UTF-8 *)
Lemma bytes_le_app p a b : bytes_le (p ++ a) (p ++ b) ↔ bytes_le a b.
Proof.
  induction p as [|x p IH]; [done|]. rewrite <- IH. cbn [app]. generalize (p ++ a), (p ++ b). clear. intros a b. unfold bytes_le. split.
  - intros [[c E]|(p & y & z & a' & b' & E1 & E2 & H)].
    + injection E as ->. left. by exists c.
    + right. destruct p as [|x' p].
      * injection E1 as -> ->. injection E2 as -> ->. lia.
      * injection E1 as -> ->. injection E2 as ->. by exists p, y, z, a', b'.
  - intros [[c ->]|(p & y & z & a' & b' & -> & -> & H)]; [left; by exists c|right; by exists (x :: p), y, z, a', b'].
Qed.
Lemma bytes_lt_first p x y a b : x < y → bytes_le (p ++ x :: a) (p ++ y :: b) ∧ ¬ bytes_le (p ++ y :: b) (p ++ x :: a).
Proof.
  intros H. rewrite !bytes_le_app. split; [right; by exists [], x, y, a, b|]. intros [[c E]|([|z q] & u & v & a' & b' & E1 & E2 & H')].
  - injection E as -> _. lia.
  - injection E1 as -> _. injection E2 as -> _. lia.
  - injection E1 as -> _. injection E2 as -> _. lia.
Qed.
Definition first_less (l m : list N) : Prop := ∃ p x y a b, l = p ++ x :: a ∧ m = p ++ y :: b ∧ x < y.
Lemma first_less_cons x y l m : x < y ∨ (x = y ∧ first_less l m) → first_less (x :: l) (y :: m).
Proof.
  intros [H|[-> (p & u & v & a & b & -> & -> & H)]]; [by exists [], x, y, l, m|]. by exists (y :: p), u, v, a, b.
Qed.
Lemma utf8_char_order c d : c < d → d < 1114112 → first_less (utf8_bytes1 c) (utf8_bytes1 d).
Proof.
  assert (∀ x y l m, x ≤ y → (x = y → first_less l m) → first_less (x :: l) (y :: m)) as Hcons.
  { intros x y l m H1 H2. apply first_less_cons. destruct (N.eq_dec x y); [right; auto|left; lia]. }
  intros H Hd. unfold utf8_bytes1.
  destruct (N.ltb_spec c 128), (N.ltb_spec d 128); try lia; try (apply first_less_cons; left; lia).
  - destruct (N.ltb_spec d 2048); [apply first_less_cons; left; lia|]. destruct (N.ltb_spec d 65536); apply first_less_cons; left; lia.
  - destruct (N.ltb_spec c 2048), (N.ltb_spec d 2048); try lia.
    + apply Hcons; [lia|]. intros E. apply first_less_cons. left. lia.
    + destruct (N.ltb_spec d 65536); apply first_less_cons; left; lia.
    + destruct (N.ltb_spec c 65536), (N.ltb_spec d 65536); try lia.
      * apply Hcons; [lia|]. intros E. apply Hcons; [lia|]. intros E'. apply first_less_cons. left. lia.
      * apply first_less_cons. left. lia.
      * apply Hcons; [lia|]. intros E. apply Hcons; [lia|]. intros E'. apply Hcons; [lia|]. intros E2. apply first_less_cons. left. lia.
Qed.
Lemma utf8_order a b : (∀ c, c ∈ a ++ b → c < 1114112) → str_leb a b = true ↔ bytes_le (utf8_bytes a) (utf8_bytes b).
Proof.
  revert b. induction a as [|x a IH]; intros b Hc; cbn [str_leb].
  - split; [|done]. intros _. left. by exists (utf8_bytes b).
  - destruct b as [|y b].
    + split; [done|]. intros [[c E]|(p & u & v & a' & b' & _ & E & _)].
      * symmetry in E. change (utf8_bytes []) with (@nil N) in E. apply app_nil in E as [E _]. rewrite utf8_bytes_cons in E. apply app_nil in E as [E _]. by apply utf8_bytes1_ne in E.
      * by destruct p.
    + rewrite !utf8_bytes_cons. assert (x < 1114112) by (apply Hc; left). assert (y < 1114112) by (apply Hc, elem_of_app; right; left).
      rewrite orb_true_iff, andb_true_iff, N.ltb_lt, N.eqb_eq. destruct (N.lt_trichotomy x y) as [H'|[->|H']].
      * destruct (utf8_char_order x y) as (p & u & v & a' & b' & -> & -> & Huv); [done..|].
        split; [|auto]. intros _. rewrite <- !app_assoc. cbn [app]. by apply bytes_lt_first.
      * rewrite bytes_le_app, <- IH. { split; [|auto]. intros [?|[_ ?]]; [lia|done]. }
        intros c [?|?]%elem_of_app; apply Hc; [right; apply elem_of_app; auto|apply elem_of_app; right; right; auto].
      * destruct (utf8_char_order y x) as (p & u & v & a' & b' & -> & -> & Huv); [done..|].
        split; [lia|]. rewrite <- !app_assoc. cbn [app]. intros Hle. by apply bytes_lt_first in Hle.
Qed.

(** * Bits, base64 *)
Lemma bits_low k m n : (k ≤ m)%nat → bits k (n mod 2 ^ N.of_nat m) = bits k n.
Proof.
  intros H. induction k as [|k IH]; [done|]. cbn [bits]. rewrite IH by lia. f_equal. apply N.mod_pow2_bits_low. lia.
Qed.
Lemma bits_split j k n : bits (j + k) n = bits j (n / 2 ^ N.of_nat k) ++ bits k (n mod 2 ^ N.of_nat k).
Proof.
  induction j as [|j IH]; cbn [Nat.add bits app]; [by rewrite bits_low|]. rewrite IH. f_equal. rewrite N.div_pow2_bits. f_equal. lia.
Qed.
Lemma bits_cat j k x y : y < 2 ^ N.of_nat k → bits (j + k) (2 ^ N.of_nat k * x + y) = bits j x ++ bits k y.
Proof.
  intros H. rewrite bits_split. assert (2 ^ N.of_nat k ≠ 0) by (by apply N.pow_nonzero). f_equal; f_equal.
  - rewrite N.mul_comm, N.div_add_l, N.div_small by done. lia.
  - rewrite N.add_comm, N.mul_comm, N.mod_add by done. by apply N.mod_small.
Qed.
Lemma b64_char_alphabet n : n < 64 → b64_alphabet !! N.to_nat n = Some (b64_char n).
Proof.
  intros H. assert (∀ k, (k < 64)%nat → b64_alphabet !! k = Some (b64_char (N.of_nat k))) as Hk.
  { intros k Hk. do 64 (destruct k as [|k]; [vm_compute; reflexivity|]). lia. }
  rewrite Hk by lia. by rewrite N2Nat.id.
Qed.
Lemma bind_none {A B} (f : A → list B) : [] ≫= f = [].
Proof. done. Qed.
Lemma base64_spec l : (∀ b, b ∈ l → b < 256) →
  ∃ ds z, Forall2 (λ c d, d < 64 ∧ b64_alphabet !! N.to_nat d = Some c) (base64 l) ds ∧
    ds ≫= bits 6 = (l ≫= bits 8) ++ replicate z false ∧ (z < 6)%nat.
Proof.
  remember (length l) as n eqn:Hn. revert l Hn. induction (lt_wf n) as [n _ IH]. intros l -> Hl.
  assert (∀ a, bits 8 a = bits 6 (a / 4) ++ bits 2 (a mod 4)) as E1 by (intros a; apply (bits_split 6 2)).
  assert (∀ a, bits 8 a = bits 4 (a / 16) ++ bits 4 (a mod 16)) as E2 by (intros a; apply (bits_split 4 4)).
  assert (∀ a, bits 8 a = bits 2 (a / 64) ++ bits 6 (a mod 64)) as E3 by (intros a; apply (bits_split 2 6)).
  assert (∀ x y, y < 16 → bits 6 (16 * x + y) = bits 2 x ++ bits 4 y) as F1 by (intros x y H; apply (bits_cat 2 4); exact H).
  assert (∀ x y, y < 4 → bits 6 (4 * x + y) = bits 4 x ++ bits 2 y) as F2 by (intros x y H; apply (bits_cat 4 2); exact H).
  assert (∀ d, d < 64 → d < 64 ∧ b64_alphabet !! N.to_nat d = Some (b64_char d)) as Hd by (intros d H; split; [done|by apply b64_char_alphabet]).
  destruct l as [|a [|b [|c l]]]; cbn [base64].
  - exists [], 0%nat. split; [constructor|]. split; [done|lia].
  - assert (a < 256) by (apply Hl; left). exists [a / 4; 16 * (a mod 4)], 4%nat.
    split; [repeat (constructor; [apply Hd; lia|]); constructor|]. split; [|lia].
    rewrite !bind_cons, !bind_none, !app_nil_r, E1, <- app_assoc. f_equal. rewrite <- (N.add_0_r (16 * _)). rewrite F1 by lia. done.
  - assert (a < 256) by (apply Hl; left). assert (b < 256) by (apply Hl; right; left).
    exists [a / 4; 16 * (a mod 4) + b / 16; 4 * (b mod 16)], 2%nat.
    split; [repeat (constructor; [apply Hd; lia|]); constructor|]. split; [|lia].
    rewrite !bind_cons, !bind_none, !app_nil_r, E1, (E2 b), <- !app_assoc. f_equal. rewrite F1 by lia. rewrite <- app_assoc. do 2 f_equal.
    rewrite <- (N.add_0_r (4 * _)). rewrite F2 by lia. done.
  - assert (a < 256) by (apply Hl; left). assert (b < 256) by (apply Hl; right; left). assert (c < 256) by (apply Hl; do 2 right; left).
    destruct (IH (length l)) with (l := l) as (ds & z & I1 & I2 & I3); [cbn; lia|done|intros x Hx; apply Hl; by do 3 right|].
    exists (a / 4 :: 16 * (a mod 4) + b / 16 :: 4 * (b mod 16) + c / 64 :: c mod 64 :: ds), z.
    split; [repeat (constructor; [apply Hd; lia|]); done|]. split; [|done].
    rewrite !bind_cons, I2, E1, (E2 b), (E3 c), <- !app_assoc. f_equal. rewrite F1 by lia. rewrite <- app_assoc. do 2 f_equal.
    rewrite F2 by lia. by rewrite <- app_assoc.
Qed.

(** * SHA-1 *)
Lemma low32_spec a : low32 a = a mod 2 ^ 32.
Proof. unfold low32. change 4294967295 with (N.ones 32). apply N.land_ones. Qed.
Lemma add32_spec a b : add32 a b = (a + b) mod 2 ^ 32.
Proof. apply low32_spec. Qed.
Lemma rotl32_spec k x : 0 < k → k < 32 → x < 2 ^ 32 → rotl_spec k x (rotl32 k x).
Proof.
  intros H1 H2 Hx. unfold rotl32. rewrite low32_spec. split.
  - assert (∀ n, (∀ i, 32 ≤ i → N.testbit n i = false) → n < 2 ^ 32) as Hb.
    { intros n Hn. destruct (N.eq_dec n 0) as [->|Hne]; [done|]. apply N.log2_lt_pow2; [lia|].
      destruct (N.lt_ge_cases (N.log2 n) 32) as [?|Hge]; [done|]. specialize (Hn _ Hge). rewrite N.bit_log2 in Hn by done. done. }
    apply Hb. intros i Hi. rewrite N.lor_spec, N.mod_pow2_bits_high, N.shiftr_spec by lia. cbn [orb].
    apply N.bits_above_log2. destruct (N.eq_dec x 0) as [->|Hne]; [cbn; lia|]. apply N.log2_lt_pow2 in Hx; lia.
  - intros i Hi. rewrite N.lor_spec, N.shiftr_spec by lia. destruct (N.lt_ge_cases (i + k) 32) as [H|H].
    + rewrite (N.mod_small (i + k)) by done. rewrite N.mod_pow2_bits_low, N.shiftl_spec_high by lia.
      replace (i + k - k) with i by lia. rewrite (N.bits_above_log2 x (i + k + (32 - k))), orb_false_r; [done|].
      destruct (N.eq_dec x 0) as [->|Hne]; [cbn; lia|]. apply N.log2_lt_pow2 in Hx; lia.
    + replace ((i + k) mod 32) with (i + k - 32) by lia.
      rewrite N.mod_pow2_bits_low, N.shiftl_spec_low by lia. cbn [orb]. f_equal. lia.
Qed.
Lemma be_value_bytes k n : be_value (be_bytes k n) = n mod 256 ^ N.of_nat k.
Proof.
  revert n. induction k as [|k IH]; intros n; cbn [be_bytes]; [by rewrite N.mod_1_r|].
  unfold be_value in *. rewrite foldl_app, IH. cbn [foldl]. rewrite Nat2N.inj_succ, N.pow_succ_r'.
  rewrite (N.mod_mul_r n 256) by (done || by apply N.pow_nonzero). lia.
Qed.
Lemma sha1_pad_spec m : ∃ z, sha1_pad m = m ++ [128] ++ replicate z 0 ++ be_bytes 8 (8 * N.of_nat (length m)) ∧
  (z < 64)%nat ∧ (length (sha1_pad m) mod 64 = 0)%nat.
Proof.
  unfold sha1_pad. eexists. split; [reflexivity|]. rewrite !app_length, replicate_length, be_bytes_length. cbn [length].
  set (n := length m). split; [lia|].
  assert ((N.of_nat (n + (1 + (N.to_nat ((119 - N.of_nat n mod 64) mod 64) + 8))) mod 64 = 0)%N) as H; [|apply Nat2N.inj; rewrite Nat2N.inj_mod; exact H].
  rewrite !Nat2N.inj_add, N2Nat.id. lia.
Qed.
Lemma chunks_spec {A} k fuel (l : list A) : (0 < k)%nat → (length l ≤ fuel)%nat → (length l mod k = 0)%nat →
  mjoin (chunks fuel k l) = l ∧ Forall (λ c, length c = k) (chunks fuel k l).
Proof.
  intros Hk. revert l. induction fuel as [|fuel IH]; intros l Hl Hm.
  - destruct l; [|cbn in Hl; lia]. split; [done|constructor].
  - destruct l as [|x l]; [split; [done|constructor]|]. cbn [chunks].
    assert (k ≤ length (x :: l))%nat as Hkl.
    { destruct (decide (k ≤ length (x :: l))%nat); [done|]. rewrite Nat.mod_small in Hm by lia. done. }
    destruct (IH (drop k (x :: l))) as [I1 I2].
    + rewrite drop_length. cbn [length] in *. lia.
    + rewrite drop_length. replace (length (x :: l)) with ((length (x :: l) - k) + 1 * k)%nat in Hm by lia. by rewrite Nat.mod_add in Hm by lia.
    + change (mjoin (?c :: ?cs)) with (c ++ mjoin cs). rewrite I1, take_drop. split; [done|]. constructor; [|done]. apply take_length_le. lia.
Qed.

Lemma sha1_schedule_spec n ws : length ws = 16%nat →
  length (sha1_schedule n ws) = n ∧ ∀ t, (t < n)%nat →
    ((t < 16)%nat → nth t (sha1_schedule n ws) 0 = nth t ws 0) ∧
    ((16 ≤ t)%nat → let W i := nth (t - i) (sha1_schedule n ws) 0 in
      nth t (sha1_schedule n ws) 0 = rotl32 1 (N.lxor (N.lxor (W 3%nat) (W 8%nat)) (N.lxor (W 14%nat) (W 16%nat)))).
Proof.
  revert ws. induction n as [|n IH]; intros ws Hl; [split; [by destruct ws|lia]|].
  destruct ws as [|w0 rest]; [done|]. cbn [sha1_schedule].
  set (new := rotl32 1 _). destruct (IH (rest ++ [new])) as [I1 I2]; [rewrite app_length; cbn in *; lia|].
  set (W' := sha1_schedule n (rest ++ [new])) in *. cbn [length] in *. split; [by rewrite I1|].
  assert (length rest = 15%nat) as Hr by lia.
  intros [|t] Ht; [split; [done|lia]|]. change (nth (S t) (w0 :: W') 0) with (nth t W' 0). destruct (I2 t) as [A B]; [lia|]. split.
  - intros H. rewrite A by lia. rewrite app_nth1 by lia. done.
  - intros H. cbv zeta. destruct (decide (t = 15)%nat) as [->|Hne].
    + rewrite A by lia. rewrite app_nth2 by lia. rewrite Hr. change (nth (15 - 15) [new] 0) with new. unfold new. cbn [Nat.sub nth].
      assert (∀ i, (i < 15)%nat → nth i W' 0 = nth i rest 0) as Hi.
      { intros i Hi. destruct (I2 i) as [A' _]; [lia|]. rewrite A' by lia. apply app_nth1. lia. }
      by rewrite !Hi by lia.
    + rewrite B by lia. cbv zeta.
      assert (∀ i, (1 ≤ i ≤ 16)%nat → nth (S t - i) (w0 :: W') 0 = nth (t - i) W' 0) as Hi.
      { intros i Hi. replace (S t - i)%nat with (S (t - i)) by lia. done. }
      by rewrite !Hi by lia.
Qed.

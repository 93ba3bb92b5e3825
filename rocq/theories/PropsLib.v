(** The model's versions of functions of Rust's standard library and of the crates
    sha1 and base64 do what these are documented to do.  These are not properties of
    the program (no entry of properties.jsonl); they justify definitions of Base.v and Sha1.v that the
    model rests on. *)
From Verif Require Import Base Sha1 LibClaims Lib.
Local Open Scope N_scope.

(** [char::is_whitespace]: the 25 characters that PropList.txt of Unicode lists as
    White_Space. *)
Theorem Lib_white c : is_ws c = true ↔ c ∈ [9; 10; 11; 12; 13; 32; 133; 160; 5760; 8192; 8193; 8194; 8195; 8196; 8197;
  8198; 8199; 8200; 8201; 8202; 8232; 8233; 8239; 8287; 12288].
Proof. exact (is_ws_list c). Qed.
Print Assumptions Lib_white.
(** [str::trim]: what is left between the white space at both ends. *)
Theorem Lib_trim s t : t = trim s ↔
  (∃ a b, s = a ++ t ++ b ∧ (∀ c, c ∈ a ++ b → is_ws c = true)) ∧
  (∀ c u, t = c :: u → is_ws c = false) ∧ ∀ c u, t = u ++ [c] → is_ws c = false.
Proof. exact (trim_unique s t). Qed.
Print Assumptions Lib_trim.
Example Lib_trim_ex : trim (s2l "  a b ") = s2l "a b".
Proof. reflexivity. Qed.
(** [str::starts_with] and [str::contains]. *)
Theorem Lib_starts_with p s : starts_with p s = true ↔ ∃ r, s = p ++ r.
Proof. exact (starts_with_spec p s). Qed.
Print Assumptions Lib_starts_with.
Theorem Lib_contains p s : contains p s = true ↔ ∃ a b, s = a ++ p ++ b.
Proof. exact (contains_spec p s). Qed.
Print Assumptions Lib_contains.
Example Lib_contains_ex : contains (s2l "ark") (s2l "market") = true ∧ starts_with (s2l "ark") (s2l "market") = false.
Proof. done. Qed.
(** [str::split] on a character: the pieces without it that it separates; [join]. *)
Theorem Lib_split c s l : l = split_on c s ↔ l ≠ [] ∧ (∀ p, p ∈ l → c ∉ p) ∧ join [c] l = s.
Proof. exact (split_unique c s l). Qed.
Print Assumptions Lib_split.
Theorem Lib_join sep l : join sep l = match l with [] => [] | x :: l => x ++ (l ≫= λ y, sep ++ y) end.
Proof. exact (join_spec sep l). Qed.
Print Assumptions Lib_join.
Example Lib_split_ex : split_on 58 (s2l ":a::b") = [[]; s2l "a"; []; s2l "b"].
Proof. reflexivity. Qed.
(** [slice::sort_by]: the sorted rearrangement that keeps equal elements in order. *)
Theorem Lib_sort {A} (leb : A → A → bool) l k :
  (∀ x y, leb x y = true ∨ leb y x = true) → (∀ x y z, leb x y = true → leb y z = true → leb x z = true) →
  k = stable_sort leb l ↔
  StronglySorted (λ x y, leb x y = true) k ∧ k ≡ₚ l ∧
  ∀ x, filter (λ y, leb x y = true ∧ leb y x = true) k = filter (λ y, leb x y = true ∧ leb y x = true) l.
Proof. exact (stable_sort_spec leb l k). Qed.
Print Assumptions Lib_sort.
Example Lib_sort_ex : stable_sort (λ a b, a.1 <=? b.1) [(2, 1); (1, 2); (2, 3); (1, 4)] = [(1, 2); (1, 4); (2, 1); (2, 3)].
Proof. reflexivity. Qed.
(** Strings are ordered like their UTF-8 bytes, and [str::len] is their number. *)
Theorem Lib_order a b : (∀ c, c ∈ a ++ b → c < 1114112) → str_leb a b = true ↔ bytes_le (utf8_bytes a) (utf8_bytes b).
Proof. exact (utf8_order a b). Qed.
Print Assumptions Lib_order.
Theorem Lib_len s : N.of_nat (length (utf8_bytes s)) = utf8_len s.
Proof. exact (FingerprintProofs.utf8_bytes_length s). Qed.
Print Assumptions Lib_len.
Example Lib_order_ex : utf8_bytes [233; 65536] = [195; 169; 240; 144; 128; 128] ∧ str_leb [65535] [65536] = true.
Proof. done. Qed.
(** Base64, RFC 4648: the bits of the bytes with at most five more bits 0, six bits per character. *)
Theorem Lib_base64 l : (∀ b, b ∈ l → b < 256) →
  ∃ ds z, Forall2 (λ c d, d < 64 ∧ b64_alphabet !! N.to_nat d = Some c) (base64 l) ds ∧
    ds ≫= bits 6 = (l ≫= bits 8) ++ replicate z false ∧ (z < 6)%nat.
Proof. exact (base64_spec l). Qed.
Print Assumptions Lib_base64.
Example Lib_base64_ex : base64 [255; 0; 1; 250] = s2l "/wAB+g".
Proof. reflexivity. Qed.
(** SHA-1, FIPS 180-4: padding to blocks of 512 bits (5.1.1), *)
Theorem Lib_sha1_pad m : ∃ z, sha1_pad m = m ++ [128] ++ replicate z 0 ++ be_bytes 8 (8 * N.of_nat (length m)) ∧
  (z < 64)%nat ∧ (length (sha1_pad m) mod 64 = 0)%nat.
Proof. exact (sha1_pad_spec m). Qed.
Print Assumptions Lib_sha1_pad.
Theorem Lib_be_bytes k n : n < 256 ^ N.of_nat k → be_value (be_bytes k n) = n.
Proof. intros H. rewrite be_value_bytes. by apply N.mod_small. Qed.
Print Assumptions Lib_be_bytes.
(** the division into blocks (5.2.1) and words, *)
Theorem Lib_chunks {A} k fuel (l : list A) : (0 < k)%nat → (length l ≤ fuel)%nat → (length l mod k = 0)%nat →
  mjoin (chunks fuel k l) = l ∧ Forall (λ c, length c = k) (chunks fuel k l).
Proof. exact (chunks_spec k fuel l). Qed.
Print Assumptions Lib_chunks.
(** addition modulo 2^32 (3.2), *)
Theorem Lib_add a b : add32 a b = (a + b) mod 2 ^ 32.
Proof. exact (add32_spec a b). Qed.
Print Assumptions Lib_add.
(** the message schedule (6.1.2), and rotation of words (2.2.2). *)
Theorem Lib_sha1_schedule n ws : length ws = 16%nat →
  length (sha1_schedule n ws) = n ∧ ∀ t, (t < n)%nat →
    ((t < 16)%nat → nth t (sha1_schedule n ws) 0 = nth t ws 0) ∧
    ((16 ≤ t)%nat → let W i := nth (t - i) (sha1_schedule n ws) 0 in
      nth t (sha1_schedule n ws) 0 = rotl32 1 (N.lxor (N.lxor (W 3%nat) (W 8%nat)) (N.lxor (W 14%nat) (W 16%nat)))).
Proof. exact (sha1_schedule_spec n ws). Qed.
Print Assumptions Lib_sha1_schedule.
Theorem Lib_rotl k x : 0 < k → k < 32 → x < 2 ^ 32 → rotl_spec k x (rotl32 k x).
Proof. exact (rotl32_spec k x). Qed.
Print Assumptions Lib_rotl.

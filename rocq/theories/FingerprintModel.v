(** Model of src/fingerprint.rs, of the namespaces of src/importers/nationwide.rs
    and of src/importers/util.rs. *)
From stdpp Require Import list pretty.
From Verif Require Import Base Types Sha1.
Open Scope N_scope.

(** ** Fingerprintable values *)

(** src/fingerprint.rs:120-130, 140-142.  The accumulator holds a running SHA-1
    hasher; the model keeps the bytes fed to it and hashes them at the end, which
    is what [Digest::update] / [finalize] compute. *)
Definition accumulator := list N.

(** src/fingerprint.rs:140-142, 152-157: raw bytes. *)
Definition with_bytes (v : list N) (acc : accumulator) : accumulator := acc ++ v.
(** src/fingerprint.rs:190-195. *)
Definition with_u8 (n : N) (acc : accumulator) : accumulator := with_bytes (be_bytes 1 n) acc.
(** src/fingerprint.rs:205-211. *)
Definition with_u32 (n : N) (acc : accumulator) : accumulator := with_bytes (be_bytes 4 n) acc.
(** src/fingerprint.rs:213-219. *)
Definition with_u64 (n : N) (acc : accumulator) : accumulator := with_bytes (be_bytes 8 n) acc.
(** src/fingerprint.rs:174-180: two's complement. *)
Definition with_i32 (z : Z) (acc : accumulator) : accumulator :=
  with_bytes (be_bytes 4 (Z.to_N (z mod 4294967296))) acc.
(** src/fingerprint.rs:182-188. *)
Definition with_i64 (z : Z) (acc : accumulator) : accumulator :=
  with_bytes (be_bytes 8 (Z.to_N (z mod 18446744073709551616))) acc.
(** src/fingerprint.rs:221-226: [usize] has 64 bits here, so the conversion never
    fails. *)
Definition with_usize (n : N) (acc : accumulator) : accumulator := with_u64 n acc.
(** src/fingerprint.rs:254-258: byte length, then the UTF-8 bytes. *)
Definition with_str (s : str) (acc : accumulator) : accumulator :=
  with_bytes (utf8_bytes s) (with_usize (utf8_len s) acc).
(** src/fingerprint.rs:242-252. *)
Definition with_option {A} (f : A → accumulator → accumulator) (v : option A)
    (acc : accumulator) : accumulator :=
  match v with
  | Some v => f v (with_u8 1 acc)
  | None => with_u8 0 acc
  end.
(** src/fingerprint.rs:260-267. *)
Definition with_date (d : date) (acc : accumulator) : accumulator :=
  let '(y, m, d) := d in with_u32 d (with_u32 m (with_i32 y (with_usize 12 acc))).
(** [chrono::NaiveTime] as hour, minute, second, nanosecond. *)
Definition time := (N * N * N * N)%type.
(** src/fingerprint.rs:269-277. *)
Definition with_time (t : time) (acc : accumulator) : accumulator :=
  let '(h, m, s, n) := t in
  with_u32 n (with_u32 s (with_u32 m (with_u32 h (with_usize 16 acc)))).
(** [rust_decimal::Decimal::serialize] (external): flags, then the three mantissa
    words, all little endian; the flags hold the scale in bits 16-23 and the sign
    in bit 31. *)
Definition dec_serialize (d : decimal) : list N :=
  [0; 0; d_scale d mod 256; if d_neg d then 128 else 0] ++ le_bytes 12 (d_mant d).
(** src/fingerprint.rs:228-240. *)
Definition with_amount (a : amount) (acc : accumulator) : accumulator :=
  let name := cm_name (a_commodity a) in
  with_str name
    (with_u8 (match cm_pos (a_commodity a) with PosLeft => 1 | PosRight => 2 end)
      (with_bytes (dec_serialize (a_quantity a))
        (with_usize (16 + 1 + utf8_len name) acc))).

(** src/fingerprint.rs:132-138. *)
Definition into_base64 (acc : accumulator) : str := base64 (sha1 acc).

(** ** Builder and tags *)

(** src/fingerprint.rs:20-25. *)
Record fingerprint := Fingerprint {
  fp_algorithm : str; fp_version : Z; fp_namespace : str; fp_value : str }.

(** [i64] formatted with [{}]. *)
Definition show_Z (z : Z) : str := s2l (pretty z).

(** src/fingerprint.rs:28-35. *)
Definition legacy_tag (f : fingerprint) : str :=
  FINGERPRINT_PREFIX ++ fp_namespace f ++ s2l "-" ++ fp_value f.
(** src/fingerprint.rs:37-46. *)
Definition tag (f : fingerprint) : str :=
  FINGERPRINT_PREFIX ++ fp_algorithm f ++ s2l "." ++ show_Z (fp_version f) ++ s2l "."
  ++ fp_namespace f ++ s2l "-" ++ fp_value f.

(** src/fingerprint.rs:50-56. *)
Record builder := Builder {
  fb_acc : accumulator; fb_algorithm : str; fb_version : Z; fb_namespace : str }.

(** The character class of src/fingerprint.rs:68: [a-zA-Z0-9_+/]. *)
Definition fp_part_char (c : char) : bool :=
  ((97 <=? c) && (c <=? 122)) || ((65 <=? c) && (c <=? 90)) || ((48 <=? c) && (c <=? 57))
  || (c =? 95) || (c =? 43) || (c =? 47).
Definition fp_part_rx (s : str) : bool := forallb fp_part_char s.

(** src/fingerprint.rs:59-91. *)
Definition builder_new (algorithm : str) (version : Z) (namespace : str) : result builder :=
  if negb (fp_part_rx algorithm) then Err EBadAlgorithm
  else if negb (fp_part_rx namespace) then Err EBadNamespace
  else Ok (Builder [] algorithm version namespace).
(** src/fingerprint.rs:103-113. *)
Definition builder_with (f : accumulator → accumulator) (b : builder) : builder :=
  Builder (f (fb_acc b)) (fb_algorithm b) (fb_version b) (fb_namespace b).
(** src/fingerprint.rs:94-101. *)
Definition builder_build (b : builder) : fingerprint :=
  Fingerprint (fb_algorithm b) (fb_version b) (fb_namespace b) (into_base64 (fb_acc b)).

(** ** src/importers/util.rs *)

(** src/importers/util.rs:6-11. *)
Definition negate_amount (a : amount) : amount :=
  Amount (dec_neg (a_quantity a)) (a_commodity a).

(** src/importers/util.rs:13-16. *)
Record account_amount := AccountAmount { aa_account : str; aa_amount : amount }.
(** src/importers/util.rs:18-43; the pair is (self, peer).  [is_sign_negative]
    reads the sign bit. *)
Definition self_and_peer_account_amount (self_amount : amount) (self_account : str)
    : account_amount * account_amount :=
  let peer_account :=
    if d_neg (a_quantity self_amount) then EXPENSES_UNKNOWN else INCOME_UNKNOWN in
  (AccountAmount self_account self_amount,
   AccountAmount peer_account (negate_amount self_amount)).
(** src/importers/util.rs:45-55; the pair is (self, peer). *)
Definition self_and_peer_fingerprints (b : builder) : fingerprint * fingerprint :=
  (builder_build (builder_with (with_str (s2l "self")) b),
   builder_build (builder_with (with_str (s2l "peer")) b)).

(** ** src/importers/nationwide.rs *)

(** src/importers/nationwide.rs:10. *)
Definition BANK_NAME : str := s2l "Nationwide".
(** src/importers/nationwide.rs:33-38.  Simplification: [Lookup] carries the
    content of the RON file as a map; the value on the command line (lines 63-84) is
    in ImporterModel.v. *)
Inductive fp_namespace_opt :=
  NsAccountName | NsFixed (s : str) | NsGenerated | NsLookup (t : gmap str str).
(** src/importers/nationwide.rs:40-61.  [truncate(8)] works on bytes; base64
    text is ASCII. *)
Definition make_namespace (o : fp_namespace_opt) (account_name : str) : result str :=
  match o with
  | NsAccountName => Ok account_name
  | NsFixed s => Ok s
  | NsGenerated => Ok (take 8 (into_base64 (with_str account_name (with_str BANK_NAME []))))
  | NsLookup t => match t !! account_name with Some s => Ok s | None => Err EOther end
  end.

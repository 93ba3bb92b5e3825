(** SHA-1 (FIPS 180-4) and base64 (RFC 4648 section 4, without padding): the
    external crates [sha1] and [base64] used by src/fingerprint.rs:120-150.
    Both are evaluated on test vectors and on the repository's golden files in TestsImport.v;
    PropsLib.v relates them to these standards. *)
From stdpp Require Import list.
From Verif Require Import Base.
Open Scope N_scope.

(** The 32 low bits; PropsLib.v: this is the remainder modulo 2^32. *)
Definition low32 (a : N) : N := N.land a 4294967295.
Definition add32 (a b : N) : N := low32 (a + b).
Definition not32 (a : N) : N := N.lxor a 4294967295.
Definition rotl32 (k a : N) : N :=
  N.lor (low32 (N.shiftl a k)) (N.shiftr a (32 - k)).

(** The [k] low bytes of [n], most significant first. *)
Fixpoint be_bytes (k : nat) (n : N) : list N :=
  match k with
  | O => []
  | S k => be_bytes k (n / 256) ++ [n mod 256]
  end.
(** The [k] low bytes of [n], least significant first. *)
Fixpoint le_bytes (k : nat) (n : N) : list N :=
  match k with
  | O => []
  | S k => n mod 256 :: le_bytes k (n / 256)
  end.
(** The number written by bytes, most significant first. *)
Definition be_value (l : list N) : N := foldl (λ n b, 256 * n + b) 0 l.

(** Message padding: a one bit, zeros, and the length in bits. *)
Definition sha1_pad (m : list N) : list N :=
  let len := N.of_nat (length m) in
  let zeros := (119 - len mod 64) mod 64 in
  m ++ [128] ++ replicate (N.to_nat zeros) 0 ++ be_bytes 8 (8 * len).

(** Pieces of [k] elements; [fuel] bounds their number. *)
Fixpoint chunks {A} (fuel k : nat) (l : list A) : list (list A) :=
  match fuel, l with
  | S fuel, _ :: _ => take k l :: chunks fuel k (drop k l)
  | _, _ => []
  end.

(** Message schedule: the window holds the last 16 words, oldest first. *)
Fixpoint sha1_schedule (n : nat) (window : list N) : list N :=
  match n, window with
  | S n, w0 :: rest =>
      let new := rotl32 1 (N.lxor (N.lxor (nth 12 rest 0) (nth 7 rest 0))
                                  (N.lxor (nth 1 rest 0) w0)) in
      w0 :: sha1_schedule n (rest ++ [new])
  | _, _ => []
  end.

Definition sha1_f (t b c d : N) : N :=
  if t <? 20 then N.lor (N.land b c) (N.land (not32 b) d)
  else if t <? 40 then N.lxor (N.lxor b c) d
  else if t <? 60 then N.lor (N.lor (N.land b c) (N.land b d)) (N.land c d)
  else N.lxor (N.lxor b c) d.
Definition sha1_k (t : N) : N :=
  if t <? 20 then 1518500249 else if t <? 40 then 1859775393
  else if t <? 60 then 2400959708 else 3395469782.

Definition sha1_state := (N * N * N * N * N)%type.
Definition sha1_round (s : N * sha1_state) (w : N) : N * sha1_state :=
  let '(t, (a, b, c, d, e)) := s in
  let x := add32 (add32 (rotl32 5 a) (sha1_f t b c d)) (add32 (add32 e w) (sha1_k t)) in
  (t + 1, (x, a, rotl32 30 b, c, d)).
Definition sha1_block (h : sha1_state) (block : list N) : sha1_state :=
  let ws := sha1_schedule 80 (be_value <$> chunks 16 4 block) in
  let '(h0, h1, h2, h3, h4) := h in
  let '(_, (a, b, c, d, e)) := foldl sha1_round (0, h) ws in
  (add32 h0 a, add32 h1 b, add32 h2 c, add32 h3 d, add32 h4 e).
Definition sha1_init : sha1_state :=
  (1732584193, 4023233417, 2562383102, 271733878, 3285377520).

(** The digest: 20 bytes. *)
Definition sha1 (m : list N) : list N :=
  let p := sha1_pad m in
  let '(a, b, c, d, e) := foldl sha1_block sha1_init (chunks (length p) 64 p) in
  be_bytes 4 a ++ be_bytes 4 b ++ be_bytes 4 c ++ be_bytes 4 d ++ be_bytes 4 e.

(** Base64, standard alphabet. *)
Definition b64_char (n : N) : char :=
  if n <? 26 then 65 + n                (* A-Z *)
  else if n <? 52 then 97 + (n - 26)    (* a-z *)
  else if n <? 62 then 48 + (n - 52)    (* 0-9 *)
  else if n =? 62 then 43 (* + *) else 47 (* / *).
Fixpoint base64 (l : list N) : str :=
  match l with
  | [] => []
  | [a] => [b64_char (a / 4); b64_char (16 * (a mod 4))]
  | [a; b] =>
      [b64_char (a / 4); b64_char (16 * (a mod 4) + b / 16); b64_char (4 * (b mod 16))]
  | a :: b :: c :: l =>
      b64_char (a / 4) :: b64_char (16 * (a mod 4) + b / 16)
      :: b64_char (4 * (b mod 16) + c / 64) :: b64_char (c mod 64) :: base64 l
  end.

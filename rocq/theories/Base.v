(** Common vocabulary of the model: outcomes, strings, sorting, hash orders. *)
From stdpp Require Export gmap list sorting strings.
From Coq Require Import Ascii.
Open Scope N_scope.

(** Outcome of a Rust function: a value, an [anyhow] error (only its kind is
    kept, never the message text) or a panic (an [expect], an arithmetic
    overflow of a debug build, ...). *)
Inductive err :=
  (* merge, src/merge/posting.rs:186-212, src/merge/merger.rs:186,251,316,100, src/merge/posting.rs:108 *)
  | ECandidateTag | ENoFingerprint | EDupFingerprint | EManyFingerprint
  | EManyTransactions | ESameDestination | EInternalClaim
  (* commands and files *)
  | EIo | EParse | EUnhandledItem | EUnmergedNoFile | EStdioPath
  (* fingerprints *)
  | EBadAlgorithm | EBadNamespace
  (* importers *)
  | EBadHeader | EBadRecord | EPaidInOut | ENoDescription | ENoTimezone
  | EBadAmount | EBadDate | EBadTable | EBadTree
  (* rules *)
  | EChainNotFound | ERuleError | EDupChain
  (* time zones *)
  | EBadOffset | EDupAbbr | EOther.

Inductive result (A : Type) := Ok (a : A) | Err (e : err) | Panic.
Arguments Ok {A} a.
Arguments Err {A} e.
Arguments Panic {A}.

(** The [?] operator. *)
Definition rbind {A B} (r : result A) (f : A → result B) : result B :=
  match r with Ok a => f a | Err e => Err e | Panic => Panic end.
Definition rmap {A B} (f : A → B) (r : result A) : result B := rbind r (λ a, Ok (f a)).
Notation "'let!' x := r 'in' k" := (rbind r (λ x, k))
  (at level 200, x pattern, r at level 100, k at level 200, right associativity).

(** [Iterator<Item = Result<T>>::collect::<Result<Vec<T>>>]: in order, stops at
    the first failure. *)
Fixpoint rmapM {A B} (f : A → result B) (l : list A) : result (list B) :=
  match l with
  | [] => Ok []
  | x :: l => let! y := f x in let! ys := rmapM f l in Ok (y :: ys)
  end.

(** Strings are sequences of Unicode scalar values.  Rust's UTF-8 encoding is
    only visible through [str::len] ([utf8_len]) and byte encodings
    ([utf8_bytes]). *)
Definition char := N.
Definition str := list char.

Definition s2l (s : string) : str := N_of_ascii <$> list_ascii_of_string s.
Arguments s2l s%string.

(** [char::len_utf8]. *)
Definition utf8_len1 (c : char) : N :=
  if c <? 128 then 1 else if c <? 2048 then 2 else if c <? 65536 then 3 else 4.
(** [str::len]. *)
Definition utf8_len (s : str) : N := foldr (λ c n, utf8_len1 c + n) 0 s.
(** [str::as_bytes]. *)
Definition utf8_bytes1 (c : char) : list N :=
  if c <? 128 then [c]
  else if c <? 2048 then [192 + c / 64; 128 + c mod 64]
  else if c <? 65536 then [224 + c / 4096; 128 + (c / 64) mod 64; 128 + c mod 64]
  else [240 + c / 262144; 128 + (c / 4096) mod 64; 128 + (c / 64) mod 64; 128 + c mod 64].
Definition utf8_bytes (s : str) : list N := s ≫= utf8_bytes1.

(** [char::is_whitespace]: the Unicode White_Space property. *)
Definition is_ws (c : char) : bool :=
  ((9 <=? c) && (c <=? 13)) || (c =? 32) || (c =? 133) || (c =? 160) || (c =? 5760)
  || ((8192 <=? c) && (c <=? 8202)) || (c =? 8232) || (c =? 8233) || (c =? 8239)
  || (c =? 8287) || (c =? 12288).

Fixpoint drop_while {A} (f : A → bool) (l : list A) : list A :=
  match l with
  | [] => []
  | x :: l' => if f x then drop_while f l' else l
  end.
Fixpoint take_while {A} (f : A → bool) (l : list A) : list A :=
  match l with
  | [] => []
  | x :: l' => if f x then x :: take_while f l' else []
  end.
Definition drop_while_end {A} (f : A → bool) (l : list A) : list A :=
  reverse (drop_while f (reverse l)).

(** [str::trim]. *)
Definition trim (s : str) : str := drop_while_end is_ws (drop_while is_ws s).

(** [str::split] on one character: always at least one piece. *)
Fixpoint split_on (c : char) (s : str) : list str :=
  match s with
  | [] => [[]]
  | x :: s' =>
      if x =? c then [] :: split_on c s'
      else match split_on c s' with
           | [] => [[x]]
           | p :: ps => (x :: p) :: ps
           end
  end.

(** [<[String]>::join]. *)
Fixpoint join (sep : str) (l : list str) : str :=
  match l with
  | [] => []
  | [x] => x
  | x :: l => x ++ sep ++ join sep l
  end.

(** [str::starts_with], [str::contains] for a string pattern. *)
Fixpoint starts_with (p s : str) : bool :=
  match p, s with
  | [], _ => true
  | x :: p, y :: s => (x =? y) && starts_with p s
  | _ :: _, [] => false
  end.
Fixpoint contains (p s : str) : bool :=
  starts_with p s || match s with [] => false | _ :: s' => contains p s' end.

(** [Ord for str]: Rust compares UTF-8 bytes, which orders strings exactly like
    the sequences of their code points. *)
Fixpoint str_leb (a b : str) : bool :=
  match a, b with
  | [], _ => true
  | _ :: _, [] => false
  | x :: a, y :: b => (x <? y) || ((x =? y) && str_leb a b)
  end.

(** Rust's [sort]/[sort_by] are stable; so is this insertion sort (all stable
    sorts compute the same result). [leb x y] is "x is not greater than y". *)
Fixpoint sort_insert {A} (leb : A → A → bool) (x : A) (l : list A) : list A :=
  match l with
  | [] => [x]
  | y :: l' => if leb x y then x :: l else y :: sort_insert leb x l'
  end.
Fixpoint stable_sort {A} (leb : A → A → bool) (l : list A) : list A :=
  match l with
  | [] => []
  | x :: l => sort_insert leb x (stable_sort leb l)
  end.

(** [chrono::NaiveDate] as (year, month, day); on valid dates its order is the
    lexicographic one. *)
Definition date := (Z * N * N)%type.
Definition date_leb (a b : date) : bool :=
  let '(y1, m1, d1) := a in let '(y2, m2, d2) := b in
  (y1 <? y2)%Z || ((y1 =? y2)%Z && ((m1 <? m2) || ((m1 =? m2) && (d1 <=? d2)))).

(** Iteration order of [std::collections] hash tables, which Rust randomises:
    some function listing the elements.  Theorems quantify over all of them.
    Simplification: the order is a function of the content of the table;
    FreeOrderModel.v does without it for merging. *)
Record hash_order := HashOrder {
  ho_set : gset str → list str;
  ho_dates : ∀ A, gmap date A → list (date * A);
  ho_strs : ∀ A, gmap str A → list (str * A);
}.
Definition hash_order_ok (ho : hash_order) : Prop :=
  (∀ s, ho_set ho s ≡ₚ elements s) ∧
  (∀ A m, ho_dates ho A m ≡ₚ map_to_list m) ∧
  (∀ A m, ho_strs ho A m ≡ₚ map_to_list m).
Definition default_order : hash_order :=
  HashOrder elements (λ A, map_to_list) (λ A, map_to_list).

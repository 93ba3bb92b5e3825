(** The part of the regex crate (external; version 1.12.3 in Cargo.lock) that the
    source uses: syntax, and leftmost-first matching.  The other model files
    recognise text with hand-written scanners; RegexLaws.v proves these equal to the
    expressions in the source, read by [rx_parse] and matched by the functions below. *)
From stdpp Require Import list.
From Verif Require Import Base NwCsvModel.
Local Open Scope N_scope.

(** One item of a character class.  [\d] is Unicode category Nd. *)
Inductive rx_item := IRange (lo hi : char) | IDigit.
Definition item_match (c : char) (i : rx_item) : bool :=
  match i with IRange lo hi => (lo <=? c) && (c <=? hi) | IDigit => rx_digit c end.

(** Expressions.  [x+] is [XSeq x (XStar x)], [x?] is [XAlt x XEmpty], [x{2}] is
    [XSeq x x].  Repetition is greedy, groups are numbered. *)
Inductive rx :=
  | XEmpty
  | XClass (negated : bool) (items : list rx_item)
  | XStart | XEnd
  | XSeq (a b : rx)
  | XAlt (a b : rx)
  | XStar (a : rx)
  | XGroup (n : nat) (a : rx).

(** A place in the text: is it the beginning, and what follows. *)
Definition place := (bool * str)%type.
(** The text of the groups matched so far, latest first. *)
Definition caps := list (nat * str).

(** Repetition: as often as possible first.  An iteration that consumes nothing is
    not repeated (no expression of the source has one).  [fuel] bounds the number of
    iterations; the length of the text is enough. *)
Fixpoint star_run (body : place → caps → list (place * caps)) (fuel : nat) (p : place) (c : caps) : list (place * caps) :=
  match fuel with
  | O => [(p, c)]
  | S fuel =>
      (filter (λ pc, length pc.1.2 < length p.2)%nat (body p c) ≫= λ pc, star_run body fuel pc.1 pc.2) ++ [(p, c)]
  end.

(** All ways to match at a place, in order of preference: of the alternatives the
    left one first, of repetitions the longer first.  A match found by the crate is the
    first of these at the first place where there is one ("leftmost-first"). *)
Fixpoint rx_run (r : rx) (p : place) (c : caps) : list (place * caps) :=
  match r with
  | XEmpty => [(p, c)]
  | XClass neg items =>
      match p.2 with
      | x :: s => if xorb neg (existsb (item_match x) items) then [((false, s), c)] else []
      | [] => []
      end
  | XStart => if p.1 then [(p, c)] else []
  | XEnd => match p.2 with [] => [(p, c)] | _ => [] end
  | XSeq a b => rx_run a p c ≫= λ pc, rx_run b pc.1 pc.2
  | XAlt a b => rx_run a p c ++ rx_run b p c
  | XStar a => star_run (rx_run a) (length p.2) p c
  | XGroup n a => (λ pc, (pc.1, (n, take (length p.2 - length pc.1.2) p.2) :: pc.2)) <$> rx_run a p c
  end.

(** [Captures::get(n)]: the text the group matched last, if it did. *)
Definition group (n : nat) (c : caps) : option str := snd <$> head (filter (λ e, e.1 = n) c).

(** A match: the text before it, its groups, and the text after it. *)
Record rx_match := RxMatch { m_before : str; m_caps : caps; m_rest : str }.
(** The leftmost match in [s]; [b]: does [s] begin the text?; [before]: what was
    passed over, reversed. *)
Fixpoint rx_find (r : rx) (b : bool) (before : str) (s : str) : option rx_match :=
  match rx_run r (b, s) [] with
  | (p, c) :: _ => Some (RxMatch (reverse before) c p.2)
  | [] => match s with [] => None | x :: s => rx_find r false (x :: before) s end
  end.
(** [Regex::captures] and [Regex::is_match]. *)
Definition rx_captures (r : rx) (s : str) : option caps := m_caps <$> rx_find r true [] s.
Definition rx_is_match (r : rx) (s : str) : bool := match rx_find r true [] s with Some _ => true | None => false end.
(** [Regex::captures_iter]: the matches that follow each other, each with the text
    between it and the one before, and the text after the last.  (For expressions that
    match no empty text; the crate has a rule for those.) *)
Fixpoint rx_iter (r : rx) (fuel : nat) (b : bool) (s : str) : list rx_match * str :=
  match fuel with
  | O => ([], s)
  | S fuel =>
      match rx_find r b [] s with
      | None => ([], s)
      | Some m => let '(ms, rest) := rx_iter r fuel false (m_rest m) in (m :: ms, rest)
      end
  end.

(** ** Syntax *)

Definition ch (s : string) : char := default 0 (head (s2l s)).
(** The items of a class up to the closing bracket. *)
Fixpoint parse_items (s : str) (acc : list rx_item) : option (list rx_item * str) :=
  match s with
  | [] => None
  | x :: s =>
      if x =? ch "]" then Some (reverse acc, s)
      else match s with
           | d :: y :: s' =>
               if (d =? ch "-") && negb (y =? ch "]") then parse_items s' (IRange x y :: acc)
               else parse_items s (IRange x x :: acc)
           | _ => parse_items s (IRange x x :: acc)
           end
  end.
Definition parse_class (s : str) : option (rx * str) :=
  match s with
  | x :: s' =>
      if x =? ch "^" then (λ ir, (XClass true ir.1, ir.2)) <$> parse_items s' []
      else (λ ir, (XClass false ir.1, ir.2)) <$> parse_items s []
  | [] => None
  end.
Definition parse_escape (s : str) : option (rx * str) :=
  match s with
  | x :: s =>
      if x =? ch "d" then Some (XClass false [IDigit], s)
      else if x =? ch "." then Some (XClass false [IRange x x], s)
      else None
  | [] => None
  end.
(** A repetition after [a], if there is one.  {n} only for one digit n > 0. *)
Fixpoint repeat_rx (n : nat) (a : rx) : rx :=
  match n with O => XEmpty | S O => a | S n => XSeq a (repeat_rx n a) end.
Definition parse_repeat (a : rx) (s : str) : option (rx * str) :=
  match s with
  | x :: s' =>
      if x =? ch "*" then Some (XStar a, s')
      else if x =? ch "+" then Some (XSeq a (XStar a), s')
      else if x =? ch "?" then Some (XAlt a XEmpty, s')
      else if x =? ch "{" then
        match s' with
        | d :: c :: s'' =>
            if (49 <=? d) && (d <=? 57) && (c =? ch "}") then Some (repeat_rx (N.to_nat (d - 48)) a, s'') else None
        | _ => None
        end
      else Some (a, s)
  | [] => Some (a, s)
  end.
(** A sequence up to the end or a closing parenthesis; [n] is the number of the next
    group.  No alternation: the source has none. *)
Fixpoint parse_seq (fuel : nat) (n : nat) (s : str) : option (rx * nat * str) :=
  match fuel with
  | O => None
  | S fuel =>
      match s with
      | [] => Some (XEmpty, n, [])
      | x :: s' =>
          if x =? ch ")" then Some (XEmpty, n, s)
          else
            let atom : option (rx * nat * str) :=
              if x =? ch "(" then
                match s' with
                | q :: col :: s'' =>
                    if (q =? ch "?") && (col =? ch ":") then
                      match parse_seq fuel n s'' with
                      | Some (a, n', cl :: rest) => Some (a, n', rest)
                      | _ => None
                      end
                    else
                      match parse_seq fuel (S n) s' with
                      | Some (a, n', cl :: rest) => Some (XGroup n a, n', rest)
                      | _ => None
                      end
                | _ => None
                end
              else if x =? ch "[" then (λ ar, (ar.1, n, ar.2)) <$> parse_class s'
              else if x =? ch "\" then (λ ar, (ar.1, n, ar.2)) <$> parse_escape s'
              else if x =? ch "." then Some (XClass true [IRange 10 10], n, s')
              else if x =? ch "^" then Some (XStart, n, s')
              else if x =? ch "$" then Some (XEnd, n, s')
              else if existsb (N.eqb x) (s2l "|*+?{}") then None
              else Some (XClass false [IRange x x], n, s') in
            match atom with
            | Some (a, n, s) =>
                match parse_repeat a s with
                | Some (a, s) =>
                    match parse_seq fuel n s with
                    | Some (XEmpty, n, s) => Some (a, n, s)
                    | Some (b, n, s) => Some (XSeq a b, n, s)
                    | None => None
                    end
                | None => None
                end
            | None => None
            end
      end
  end.
(** [Regex::new]. *)
Definition rx_parse (s : str) : option rx :=
  match parse_seq (S (length s)) 1 s with Some (a, _, []) => Some a | _ => None end.

(** ** The expressions of the source *)

(** src/comment.rs:43. *)
Definition VALUE_TAG_RX : str := s2l "^[ ]*([^: ]+):(?:[ ]+(.+))?$".
(** src/comment.rs:46. *)
Definition FLAG_TAG_RX : str := s2l ":((?:[^: ]+:)+)".
(** src/fingerprint.rs:68. *)
Definition VALID_FP_PART_RX : str := s2l "^[a-zA-Z0-9_+/]*$".
(** src/tzabbr.rs:57. *)
Definition UTC_HOURS_RX : str := s2l "^UTC([-+])([0-9]{2})$".
(** src/tzabbr.rs:59. *)
Definition UTC_HOURS_MINS_RX : str := s2l "^UTC([-+])([0-9]{2}):([0-9]{2})$".
(** src/importers/nationwide_csv.rs:481; the pound sign is not ASCII. *)
Definition GBP_RX : str := POUND :: s2l "(-?)(\d+)\.(\d+)".
(** src/importers/nationwide_pdf.rs:707. *)
Definition SORT_CODE_RX : str := s2l "^\d{2}-\d{2}-\d{2}$".
(** src/importers/nationwide_pdf.rs:710. *)
Definition ACCT_NUM_RX : str := s2l "^\d{8}$".

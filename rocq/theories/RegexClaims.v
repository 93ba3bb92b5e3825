(** What a regular expression means, without the matcher, and the places of the
    program that use one, written with the expression. *)
From stdpp Require Import gmap list.
From Verif Require Import Base Types CommentModel FingerprintModel NwCsvModel TzModel RegexModel.
From Coq Require Import Lia.
Local Open Scope nat_scope.

(** [matches r p q]: [r] matches the text from place [p] to place [q]. *)
Inductive matches : rx → place → place → Prop :=
  | M_empty p : matches XEmpty p p
  | M_class neg items b x s : xorb neg (existsb (item_match x) items) = true → matches (XClass neg items) (b, x :: s) (false, s)
  | M_start s : matches XStart (true, s) (true, s)
  | M_end b : matches XEnd (b, []) (b, [])
  | M_seq r1 r2 p q q' : matches r1 p q → matches r2 q q' → matches (XSeq r1 r2) p q'
  | M_left r1 r2 p q : matches r1 p q → matches (XAlt r1 r2) p q
  | M_right r1 r2 p q : matches r2 p q → matches (XAlt r1 r2) p q
  | M_star_none r p : matches (XStar r) p p
  | M_star_more r p q q' : matches r p q → matches (XStar r) q q' → matches (XStar r) p q'
  | M_group n r p q : matches r p q → matches (XGroup n r) p q.

(** The place after [before], in front of [s]. *)
Definition place_at (before s : str) : place := (match before with [] => true | _ => false end, s).

(** src/comment.rs:56-95 with the two expressions: [value] is the one of line 43,
    [flag] the one of line 46. *)
Definition regex_line (value flag : rx) (line : str) (c : comment) : comment :=
  match rx_captures value line with
  | Some g => set_value_tags (λ m, <[default [] (group 1 g) := default [] (group 2 g)]> m) c
  | None =>
      let '(found, tail) := rx_iter flag (S (length line)) true line in
      push_text tail (foldl (λ c m,
        set_tags (λ t, foldl (λ t f, {[f]} ∪ t) t (flags_of_group (default [] (group 1 (m_caps m)))))
          (push_text (m_before m) c)) c found)
  end.
Definition regex_comment (value flag : rx) (text : str) : comment :=
  foldl (λ c line, regex_line value flag line c) comment_new (split_on NL text).

(** [captures[n].parse()] for a group of ASCII digits. *)
Definition group_number (n : nat) (c : caps) : Z := Z.of_N (parse_digits (default [] (group n c))).
(** src/tzabbr.rs:61-72: sign, hours and minutes. *)
Definition regex_offset (hours hours_mins : rx) (s : str) : option (bool * Z * Z) :=
  match rx_captures hours s with
  | Some c => Some (bool_decide (group 1 c = Some (s2l "+")), group_number 2 c, 0%Z)
  | None => (λ c, (bool_decide (group 1 c = Some (s2l "+")), group_number 2 c, group_number 3 c)) <$> rx_captures hours_mins s
  end.
(** src/tzabbr.rs:61-79. *)
Definition regex_utc_offset (hours hours_mins : rx) (s : str) : result fixed_offset :=
  match regex_offset hours hours_mins s with
  | None => Err EBadOffset
  | Some (positive, h, m) =>
      if (59 <? m)%Z then Err EBadOffset
      else match east_opt ((if positive then 1 else -1) * (h * 3600 + m * 60))%Z with Some o => Ok o | None => Err EBadOffset end
  end.

(** src/importers/nationwide_csv.rs:483-498. *)
Definition regex_money (r : rx) (s : str) : result amount :=
  match rx_captures r s with
  | None => Err EBadAmount
  | Some c =>
      let! pounds := parse_i64 (default [] (group 2 c)) in
      let! pence := parse_i64 (default [] (group 3 c)) in
      if (pounds * 100 + pence <=? I64_MAX)%N
      then Ok (Amount (Dec (bool_decide (group 1 c = Some (s2l "-"))) 2 (pounds * 100 + pence)) GBP)
      else Panic
  end.

(** Model of src/comment.rs. *)
From stdpp Require Import gmap list.
From Verif Require Import Base Types.
Open Scope N_scope.

Definition COLON : char := 58.
Definition SPACE : char := 32.
Definition NL : char := 10.

(** src/comment.rs:7. *)
Definition MAX_INLINE_TAG_LEN : N := 12.

(** src/comment.rs:23-29. *)
Definition comment_new : comment := Comment [] ∅ ∅.

(** The character class [^: ] of both regular expressions (comment.rs:43,46). *)
Definition tag_char (c : char) : bool := negb (c =? COLON) && negb (c =? SPACE).

(** VALUE_TAG_RX, ^[ ]*([^: ]+):(?:[ ]+(.+))?$ (src/comment.rs:43), as a
    function returning groups 1 and 2.  The classes before the colon are
    disjoint, so greedy matching needs no backtracking there.  After the colon,
    the leading [ ]+ is greedy but gives back one space if otherwise (.+) would
    be empty.  [.] does not match a newline (the callers' lines have none). *)
Definition value_tag_rx (line : str) : option (str * option str) :=
  let s := drop_while (λ c, c =? SPACE) line in
  let key := take_while tag_char s in
  let rest := drop_while tag_char s in
  match key, rest with
  | _ :: _, c :: after =>
      if c =? COLON then
        match after with
        | [] => Some (key, None)
        | _ =>
            let sp := take_while (λ c, c =? SPACE) after in
            let v := drop_while (λ c, c =? SPACE) after in
            if existsb (λ c, c =? NL) v then None else
            match sp, v with
            | [], _ => None
            | _, _ :: _ => Some (key, Some v)
            | [_], [] => None
            | _ :: _ :: _, [] => Some (key, Some [SPACE])
            end
        end
      else None
  | _, _ => None
  end.

(** One or more repetitions of [^: ]+: at the start of [s], greedily: the text
    matched (group 1 of FLAG_TAG_RX, src/comment.rs:46) and the remaining text.
    The matched text is empty if there is no match.  [fuel] bounds the number
    of repetitions; the callers pass the length of [s]. *)
Fixpoint flag_reps (fuel : nat) (s : str) : str * str :=
  match fuel with
  | O => ([], s)
  | S fuel =>
      match take_while tag_char s, drop_while tag_char s with
      | (_ :: _) as run, c :: rest =>
          if c =? COLON
          then let '(m, rest') := flag_reps fuel rest in (run ++ COLON :: m, rest')
          else ([], s)
      | _, _ => ([], s)
      end
  end.

(** Leftmost non-overlapping matches of FLAG_TAG_RX, :((?:[^: ]+:)+), as
    [captures_iter] yields them (src/comment.rs:68-82): the list of (text since
    the previous match, group 1), and the text after the last match. *)
Fixpoint flag_scan (fuel : nat) (acc : str) (s : str) : list (str * str) * str :=
  match fuel with
  | O => ([], reverse acc ++ s)
  | S fuel =>
      match s with
      | [] => ([], reverse acc)
      | c :: s' =>
          if c =? COLON then
            match flag_reps (length s') s' with
            | ([], _) => flag_scan fuel (c :: acc) s'
            | (m, rest) =>
                let '(ms, tail) := flag_scan fuel [] rest in ((reverse acc, m) :: ms, tail)
            end
          else flag_scan fuel (c :: acc) s'
      end
  end.

(** src/comment.rs:84: trim_end_matches(':').split(':'). *)
Definition flags_of_group (g : str) : list str :=
  split_on COLON (drop_while_end (λ c, c =? COLON) g).

(** src/comment.rs:74-80, 88-93. *)
Definition push_text (text : str) (c : comment) : comment :=
  match trim text with
  | [] => c
  | t => Comment (lines c ++ [t]) (tags c) (value_tags c)
  end.

(** src/comment.rs:56-95, body of the loop over lines. *)
Definition parse_line (line : str) (c : comment) : comment :=
  match value_tag_rx line with
  | Some (key, value) => set_value_tags (λ m, <[key := default [] value]> m) c
  | None =>
      let '(groups, tail) := flag_scan (length line) [] line in
      let c := foldl (λ c '(text, g),
                 set_tags (λ t, foldl (λ t f, {[f]} ∪ t) t (flags_of_group g)) (push_text text c))
                 c groups in
      push_text tail c
  end.

(** src/comment.rs:41-97 (and from_opt_string, 36-38). *)
Definition from_opt_comment (s : option str) : comment :=
  match s with
  | None => comment_new
  | Some s => foldl (λ c line, parse_line line c) comment_new (split_on NL s)
  end.

Definition pair_leb (a b : str * str) : bool :=
  if str_eqb a.1 b.1 then str_leb a.2 b.2 else str_leb a.1 b.1.

(** src/comment.rs:118-127. [trim_string] (157-163) is [trim]. *)
Definition format_lines (out : list str) (ls : list str) : list str :=
  match ls, out with
  | [], _ => out
  | l :: ls, o :: out => (o ++ SPACE :: trim l) :: out ++ (trim <$> ls)
  | ls, [] => trim <$> ls
  end.

(** src/comment.rs:103-117. *)
Definition format_tags (ho : hash_order) (ts : gset str) : list str :=
  let all := ho_set ho ts in
  let short := filter (λ t, is_true (utf8_len t <=? MAX_INLINE_TAG_LEN)) all in
  let long := filter (λ t, is_true (negb (utf8_len t <=? MAX_INLINE_TAG_LEN))) all in
  (match short with
   | [] => []
   | _ => [[COLON] ++ join [COLON] (stable_sort str_leb short) ++ [COLON]]
   end)
  ++ ((λ t, [COLON] ++ t ++ [COLON]) <$> stable_sort str_leb long).

(** src/comment.rs:129-133. *)
Definition format_values (ho : hash_order) (m : gmap str str) : list str :=
  (λ '(k, v), trim k ++ [COLON; SPACE] ++ trim v) <$> stable_sort pair_leb (ho_strs ho str m).

(** src/comment.rs:100-140. *)
Definition into_opt_comment (ho : hash_order) (c : comment) : option str :=
  let out := format_lines (format_tags ho (tags c)) (lines c) ++ format_values ho (value_tags c) in
  match out with
  | [] => None
  | _ => Some (join [NL] out)
  end.

(** src/comment.rs:147-151. *)
Definition merge_lines (self other : list str) : list str :=
  foldl (λ ls l, if existsb (λ x, str_eqb x l) ls then ls else ls ++ [l]) self other.

(** src/comment.rs:146-154. *)
Definition merge_from (self other : comment) : comment :=
  Comment (merge_lines (lines self) (lines other))
          (tags self ∪ tags other)
          (value_tags other ∪ value_tags self).

(** CommentBuilder, src/comment.rs:189-215. *)
Definition with_tag (t : str) (c : comment) : comment := set_tags (λ s, {[t]} ∪ s) c.
Definition with_option_tag (t : option str) (c : comment) : comment :=
  match t with Some t => with_tag t c | None => c end.
Definition with_value_tag (k v : str) (c : comment) : comment := set_value_tags (<[k := v]>) c.
Definition with_option_value_tag (k : str) (v : option str) (c : comment) : comment :=
  match v with Some v => with_value_tag k v c | None => c end.

(** src/internal.rs:100-114, 16-30, 62-79. *)
Definition posting_internal_of (p : posting) : posting_internal :=
  PI (set_pcomment None p) (from_opt_comment (p_comment p)).
Definition posting_of (ho : hash_order) (p : posting_internal) : posting :=
  set_pcomment (into_opt_comment ho (pi_comment p)) (pi_raw p).
Definition transaction_internal_of (t : transaction) : transaction_internal :=
  TI (set_tcomment None t) (from_opt_comment (t_comment t)).
Definition transaction_of (ho : hash_order) (t : transaction_internal) : transaction :=
  set_tcomment (into_opt_comment ho (ti_comment t)) (ti_raw t).
Definition transaction_postings_of (t : transaction) : transaction_postings :=
  TP (transaction_internal_of (set_tpostings [] t)) (posting_internal_of <$> t_postings t).
Definition transaction_of_postings (ho : hash_order) (tp : transaction_postings) : transaction :=
  set_tpostings (posting_of ho <$> tp_posts tp) (transaction_of ho (tp_trn tp)).

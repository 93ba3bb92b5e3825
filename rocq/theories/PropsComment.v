(** The properties of comments (C31-C37).  The vocabulary ([tag_name],
    [flag_in], [value_line], [representable], [parsed_shape]) is in
    CommentClaims.v. *)
From Verif Require Import Base Types SpecBase BaseProofs StrProofs CommentModel CommentClaims CommentProofs CommentLaws CommentExamples.
Local Open Scope nat_scope.

(** C31 *)
Theorem C31_comment_round_trip ho c :
  hash_order_ok ho → representable c → from_opt_comment (into_opt_comment ho c) = c.
Proof. exact (roundtrip ho c). Qed.
Print Assumptions C31_comment_round_trip.
Example C31_ex : representable ex_c1 ∧
  into_opt_comment default_order ex_c1 =
    Some (s2l ":bank: key: of a tagged line" ++ [newline] ++ s2l ":fp-sha1.1-acct.Zm9vYmFy:" ++ [newline] ++
          s2l "a : b :c" ++ [newline] ++ s2l "k: v :x: w" ++ [newline] ++ s2l "source-file: a/b.ledger").
Proof.
  split; [|by_compute]. exact ex_c1_representable.
Qed.

(** C32 *)
Theorem C32_flag_tags_survive ho c t :
  hash_order_ok ho → (∀ u, u ∈ tags c → newline ∉ u) → t ∈ tags c → tag_name t →
  t ∈ tags (from_opt_comment (into_opt_comment ho c)).
Proof. exact (tags_survive ho c t). Qed.
Print Assumptions C32_flag_tags_survive.
(** A comment with an unwritable tag, which does not survive, next to a good one. *)
Example C32_ex : tags (from_opt_comment (into_opt_comment default_order ex_c)) = {[ s2l "fp-sha1.1"; s2l "b" ]}
  ∧ ¬ representable ex_c.
Proof. split; [by_compute|]. exact ex_c_not_representable. Qed.

(** C33 *)
Theorem C33_formatting_canonical ho ho' c :
  hash_order_ok ho → hash_order_ok ho' → into_opt_comment ho c = into_opt_comment ho' c.
Proof. exact (into_opt_comment_order ho ho' c). Qed.
Print Assumptions C33_formatting_canonical.
Example C33_ex : hash_order_ok reverse_order ∧
  ho_set reverse_order (tags ex_c1) ≠ ho_set default_order (tags ex_c1).
Proof. split; [exact reverse_order_ok|]. by_compute. Qed.

(** C34: false for empty values: the tag is written as "key: ", which is read
    back as text. *)
Theorem C34_value_tags_survive_refuted :
  ∃ c k, tag_name k ∧ value_tags c = {[ k := [] ]} ∧ lines c = [] ∧ tags c = ∅ ∧
    from_opt_comment (into_opt_comment default_order c) = Comment [k ++ [colon]] ∅ ∅.
Proof. exact value_lost. Qed.
Print Assumptions C34_value_tags_survive_refuted.
(** True for every value that is not blank.  Missing: blank values. *)
Theorem C34_value_tags_survive_partial ho c k v :
  hash_order_ok ho →
  (∀ k v, value_tags c !! k = Some v → tag_name k ∧ trim k = k ∧ newline ∉ k ∧ newline ∉ v) →
  value_tags c !! k = Some v → trim v ≠ [] →
  value_tags (from_opt_comment (into_opt_comment ho c)) !! k = Some (trim v).
Proof. exact (values_survive ho c k v). Qed.
Print Assumptions C34_value_tags_survive_partial.
Example C34_ex : value_tags (from_opt_comment (into_opt_comment default_order
    (Comment [s2l "k: shadowed"] ∅ {[ s2l "k" := s2l " v "; s2l "z" := [] ]}))) = {[ s2l "k" := s2l "v" ]}.
Proof. by_compute. Qed.

(** C35: false: "key:" is formatted as "key: " and that as "key:". *)
Theorem C35_format_fixed_point_refuted :
  ∃ s, let text := into_opt_comment default_order (from_opt_comment (Some s)) in
    into_opt_comment default_order (from_opt_comment text) ≠ text.
Proof. exact not_fixed. Qed.
Print Assumptions C35_format_fixed_point_refuted.
(** True if no value is blank, no key starts or ends with a blank and no text
    line looks like a value tag (unless it is the first line, after tags). *)
Theorem C35_format_fixed_point_partial ho s :
  hash_order_ok ho →
  let c := from_opt_comment s in
  (∀ k v, value_tags c !! k = Some v → trim v ≠ [] ∧ trim k = k) →
  (∀ i l k, lines c !! i = Some l → i ≠ 0 ∨ tags c = ∅ → ¬ value_line k l) →
  into_opt_comment ho (from_opt_comment (into_opt_comment ho c)) = into_opt_comment ho c.
Proof. exact (λ Hho, format_parse_fixed ho (from_opt_comment s) Hho (from_opt_comment_shape s)). Qed.
Print Assumptions C35_format_fixed_point_partial.
Example C35_ex : let c := from_opt_comment (Some (s2l "text  :a:b: key: x  " ++ [newline] ++ s2l "  k:   v ")) in
  lines c = [s2l "text"; s2l "key: x"] ∧ value_tags c = {[ s2l "k" := s2l "v " ]} ∧
  into_opt_comment default_order c = Some (s2l ":a:b: text" ++ [newline] ++ s2l "key: x" ++ [newline] ++ s2l "k: v").
Proof. split_and!; by_compute. Qed.

(** C36 *)
Theorem C36_merge_tags a b t : t ∈ tags (merge_from a b) ↔ t ∈ tags a ∨ t ∈ tags b.
Proof. exact (elem_of_union (tags a) (tags b) t). Qed.
Print Assumptions C36_merge_tags.
Theorem C36_merge_values a b k :
  value_tags (merge_from a b) !! k =
    match value_tags b !! k with Some v => Some v | None => value_tags a !! k end.
Proof. exact (merge_values_lookup a b k). Qed.
Print Assumptions C36_merge_values.
Theorem C36_merge_lines a b :
  ∃ new, lines (merge_from a b) = lines a ++ new ∧ NoDup new ∧ new `sublist_of` lines b ∧
    ∀ l, l ∈ new ↔ l ∈ lines b ∧ l ∉ lines a.
Proof. exact (merge_lines_spec (lines a) (lines b)). Qed.
Print Assumptions C36_merge_lines.
Theorem C36_merge_idempotent a b : merge_from (merge_from a b) b = merge_from a b ∧ merge_from a a = a.
Proof. exact (conj (merge_from_idem a b) (merge_from_self a)). Qed.
Print Assumptions C36_merge_idempotent.
Theorem C36_merge_associative a b c : merge_from (merge_from a b) c = merge_from a (merge_from b c).
Proof. exact (merge_from_assoc a b c). Qed.
Print Assumptions C36_merge_associative.
Example C36_ex : merge_from (Comment [s2l "x"; s2l "y"] {[ s2l "a" ]} {[ s2l "k" := s2l "1"; s2l "j" := s2l "0" ]})
    (Comment [s2l "z"; s2l "x"; s2l "w"; s2l "z"] {[ s2l "b" ]} {[ s2l "k" := s2l "2" ]})
  = Comment [s2l "x"; s2l "y"; s2l "z"; s2l "w"] {[ s2l "a"; s2l "b" ]} {[ s2l "k" := s2l "2"; s2l "j" := s2l "0" ]}.
Proof. by_compute. Qed.

(** C37 *)
Theorem C37_parsed_well_formed s : parsed_shape (from_opt_comment s).
Proof. exact (from_opt_comment_shape s). Qed.
Print Assumptions C37_parsed_well_formed.
(** A flag tag is found exactly if [:t:] occurs in a line that is no value tag, *)
Theorem C37_flags_found s t : t ∈ tags (from_opt_comment (Some s)) ↔
  ∃ l, l ∈ split_on newline s ∧ (∀ k, ¬ value_line k l) ∧ flag_in t l.
Proof. exact (flags_exact s t). Qed.
Print Assumptions C37_flags_found.
(** and a value tag exactly if a line has that form. *)
Theorem C37_keys_found s k : is_Some (value_tags (from_opt_comment (Some s)) !! k) ↔
  ∃ l, l ∈ split_on newline s ∧ value_line k l.
Proof. exact (keys_exact s k). Qed.
Print Assumptions C37_keys_found.
(** Its value is the text of the last such line. *)
Theorem C37_values_found s k v : value_tags (from_opt_comment (Some s)) !! k = Some v ↔
  ∃ before l after, split_on newline s = before ++ l :: after ∧ value_text k l v ∧
    ∀ l', l' ∈ after → ¬ value_line k l'.
Proof. exact (values_exact s k v). Qed.
Print Assumptions C37_values_found.
Example C37_ex : from_opt_comment (Some (s2l "::a::b:c: :d e:f: x" ++ [newline] ++ s2l " k:  v:a:"))
  = Comment [s2l ":"; s2l ":d e"; s2l "x"] {[ s2l "a"; s2l "b"; s2l "c"; s2l "f" ]} {[ s2l "k" := s2l "v:a:" ]}.
Proof. by_compute. Qed.

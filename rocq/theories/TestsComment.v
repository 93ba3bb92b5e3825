(** The unit tests of src/comment.rs (lines 217-377) run on the model. *)
From Verif Require Import Base Types CommentModel.
Open Scope N_scope.

Definition nl (l : list str) : option str := Some (join [NL] l).
Definition line (l : str) (c : comment) : comment := Comment (lines c ++ [l]) (tags c) (value_tags c).

Example empty_comment : from_opt_comment (Some []) = comment_new. Proof. by_compute. Qed.
Example just_text : from_opt_comment (nl [s2l "comment text"]) = line (s2l "comment text") comment_new.
Proof. by_compute. Qed.
Example text_kv_text : from_opt_comment (nl [s2l "start text"; s2l "key: value"; s2l "end text"])
  = line (s2l "end text") (with_value_tag (s2l "key") (s2l "value") (line (s2l "start text") comment_new)).
Proof. by_compute. Qed.
Example text_2_inline_tags_text : from_opt_comment (nl [s2l "start text :TAG1:TAG2: end text"; []])
  = line (s2l "end text") (with_tag (s2l "TAG2") (with_tag (s2l "TAG1") (line (s2l "start text") comment_new))).
Proof. by_compute. Qed.
Example text_2_inline_tags_text_with_colons :
  from_opt_comment (nl [s2l "start text :TAG1:TAG2: end : text : with : colons"; []])
  = line (s2l "end : text : with : colons")
      (with_tag (s2l "TAG2") (with_tag (s2l "TAG1") (line (s2l "start text") comment_new))).
Proof. by_compute. Qed.
Example bad_key_value_becomes_text :
  from_opt_comment (nl [s2l "comment"; s2l ":flag: ignored-key: value"; s2l "key: value"])
  = with_value_tag (s2l "key") (s2l "value")
      (line (s2l "ignored-key: value") (with_tag (s2l "flag") (line (s2l "comment") comment_new))).
Proof. by_compute. Qed.
Example key_without_value : from_opt_comment (nl [s2l "comment"; s2l "key-without-value:"])
  = with_value_tag (s2l "key-without-value") [] (line (s2l "comment") comment_new).
Proof. by_compute. Qed.

Example empty_comment_to_none : into_opt_comment default_order comment_new = None. Proof. by_compute. Qed.
Example two_lines_of_text : into_opt_comment default_order
    (line (s2l "second line") (line (s2l "first line") comment_new)) = nl [s2l "first line"; s2l "second line"].
Proof. by_compute. Qed.
Example two_lines_of_text_and_key_value : into_opt_comment default_order
    (with_value_tag (s2l "name") (s2l "value") (line (s2l "second line") (line (s2l "first line") comment_new)))
  = nl [s2l "first line"; s2l "second line"; s2l "name: value"].
Proof. by_compute. Qed.
Example four_inline_tags_followed_by_text : into_opt_comment default_order
    (with_tag (s2l "tag4") (with_tag (s2l "tag3") (line (s2l "more text")
      (with_tag (s2l "tag2") (with_tag (s2l "tag1") (line (s2l "text") comment_new))))))
  = nl [s2l ":tag1:tag2:tag3:tag4: text"; s2l "more text"].
Proof. by_compute. Qed.
Example newlines_injected_when_needed : into_opt_comment default_order
    (Comment [s2l "text"; s2l "more text"] {[s2l "tag1"; s2l "tag2"; s2l "tag3"]}
       {[s2l "name1" := s2l "value1"; s2l "name2" := s2l "value2"]})
  = nl [s2l ":tag1:tag2:tag3: text"; s2l "more text"; s2l "name1: value1"; s2l "name2: value2"].
Proof. by_compute. Qed.
Example long_tags_go_on_own_line : into_opt_comment default_order
    (Comment [] {[s2l "a_tag"; s2l "z_tag"; s2l "really_long_tag_name"]} {[s2l "name1" := s2l "value1"]})
  = nl [s2l ":a_tag:z_tag:"; s2l ":really_long_tag_name:"; s2l "name1: value1"].
Proof. by_compute. Qed.
Example test_merge_comment : merge_from
    (Comment [s2l "orig text"] {[s2l "orig_tag"]}
       {[s2l "orig_key1" := s2l "orig_value1"; s2l "orig_key2" := s2l "orig_value2"]})
    (Comment [s2l "new text"] {[s2l "new_tag"]}
       {[s2l "new_key1" := s2l "new_value1"; s2l "orig_key2" := s2l "new_value2"]})
  = Comment [s2l "orig text"; s2l "new text"] {[s2l "new_tag"; s2l "orig_tag"]}
      {[s2l "new_key1" := s2l "new_value1"; s2l "orig_key1" := s2l "orig_value1"; s2l "orig_key2" := s2l "new_value2"]}.
Proof. by_compute. Qed.

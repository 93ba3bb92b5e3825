(** C103: the layout of written comments.  Vocabulary: LayoutClaims.v. *)
From Verif Require Import Base Types SpecBase BaseProofs CommentModel CommentClaims CommentExamples CommentTextClaims CmdClaims LayoutClaims CommentLayout.
Local Open Scope nat_scope.

Theorem C103_layout ho c : hash_order_ok ho → ∃ out, layout c out ∧ written out (into_opt_comment ho c).
Proof. exact (comment_layout ho c). Qed.
Print Assumptions C103_layout.
Theorem C103_one_layout c out out' : layout c out → layout c out' → out = out'.
Proof. exact (layout_fun c out out'). Qed.
Print Assumptions C103_one_layout.
Example C103_ex : into_opt_comment reverse_order (Comment [s2l "text "; s2l "more"]
    {[ s2l "b"; s2l "a"; s2l "twelve-chars"; s2l "thirteen-char"; s2l "a-long-tag-first" ]}
    (<[s2l "k" := s2l " v"]> (<[s2l "j" := []]> ∅))) =
  Some (s2l ":a:b:twelve-chars: text" ++ newline :: s2l ":a-long-tag-first:" ++ newline :: s2l ":thirteen-char:" ++ newline ::
    s2l "more" ++ newline :: s2l "j: " ++ newline :: s2l "k: v").
Proof. vm_compute. reflexivity. Qed.
Example C103_none_ex : into_opt_comment default_order comment_new = None ∧
  into_opt_comment default_order (Comment [] ∅ (<[s2l "j" := []]> ∅)) = Some (s2l "j: ").
Proof. split; vm_compute; reflexivity. Qed.

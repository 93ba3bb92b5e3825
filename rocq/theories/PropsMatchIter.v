(** C68: iterating over a match set. *)
From Verif Require Import Base Types CommentModel MergeModel CmdModel SpecBase MergeSpec MergeClaims CmdClaims CmdFp MatchIterModel MatchIterClaims MatchIter.
Local Open Scope nat_scope.

(** Whatever calls are made of an iterator of the set collected from [l], with the
    distinct values [d] in the order first seen: each call of [next] gives the next
    one, and none when all have been given, and the size is known at each time. *)
Theorem C68_iterator {A} `{EqDecision A} (l d : list A) cs i c : first_seen l d → cs !! i = Some c →
  iter_calls (iter_of (ms_collect l)) cs !! i = Some (answer_at d (nexts (take i cs)) c).
Proof. exact (iterator l d cs i c). Qed.
Print Assumptions C68_iterator.
Example C68_iterator_ex : let cs := [CallSizeHint; CallNext; CallNext; CallSizeHint; CallNext; CallNext; CallNext] in
  iter_calls (iter_of (ms_collect [3; 1; 3; 2; 1])) cs =
    [Hint (3, Some 3); Value (Some 3); Value (Some 1); Hint (1, Some 1); Value (Some 2); Value None; Value None] ∧
  iter_calls (iter_of (ms_collect [4; 4; 4])) cs =
    [Hint (1, Some 1); Value (Some 4); Value None; Hint (0, Some 0); Value None; Value None; Value None].
Proof. split; vm_compute; reflexivity. Qed.

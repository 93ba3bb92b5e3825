(** Specification vocabulary: where everything goes that the merge command reads (C121). *)
From Verif Require Import Base Types CommentModel MergeModel CmdModel SpecBase CmdClaims MergeClaims HistoryClaims.
Local Open Scope nat_scope.

(** The transactions handed back, of all sets in order. *)
Definition all_handed (back : nat → nat → bool) (sets : list (list transaction_postings)) : list transaction_postings :=
  mjoin (imap (λ r s, handed (back r) s) sets).
(** Handed back with candidate tags added to its postings and the source to its
    header. *)
Definition in_unmerged (tp tp' : transaction_postings) : Prop := ∃ tp1, returned_unmerged tp tp1 ∧ unsourced tp' tp1.
(** Exactly one posting of the transactions has the tag. *)
Definition once (f : str) (tps : list transaction_postings) : Prop :=
  ∃ before q after, all_posts tps = before ++ q :: after ∧ has_tag q f ∧ ∀ q', q' ∈ before ++ after → ¬ has_tag q' f.

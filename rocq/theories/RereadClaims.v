(** Specification vocabulary: writing transactions and reading them again (C116). *)
From Verif Require Import Base Types CommentModel MergeModel SpecBase CommentClaims HeaderClaims PostClaims.

(** The comment is as read from a file, and no key of a value tag is blank. *)
Definition ordinary (c : comment) : Prop := parsed_shape c ∧ ∀ k v, value_tags c !! k = Some v → trim k ≠ [].
(** What is read from a file to which transactions were written, given a printer and
    a parser of journals that keep everything. *)
Definition reread (ho : hash_order) (tps : list transaction_postings) : list transaction_postings :=
  (λ tp, transaction_postings_of (transaction_of_postings ho tp)) <$> tps.
(** Two histories of merges of the same transactions; in one of them they were
    written to files before. *)
Inductive filed : merger → merger → Prop :=
  | filed_new : filed merger_new merger_new
  | filed_merge m m' ho ho' tps : filed m m' → hash_order_ok ho' →
      (∀ tp p, tp ∈ tps → p ∈ tp_posts tp → ordinary (pi_comment p)) →
      filed (merge ho m tps).1 (merge ho m' (reread ho' tps)).1.

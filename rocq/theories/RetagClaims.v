(** Specification vocabulary: renaming flag tags (C144). *)
From Verif Require Import Base Types CommentModel MergeModel SpecBase.

(** Every flag tag [t] of a posting becomes [f t]. *)
Definition retag_post (f : str → str) (p : posting_internal) : posting_internal :=
  PI (pi_raw p) (Comment (lines (pi_comment p)) (set_map f (tags (pi_comment p))) (value_tags (pi_comment p))).
Definition retag (f : str → str) (tp : transaction_postings) : transaction_postings :=
  TP (tp_trn tp) (retag_post f <$> tp_posts tp).

(** Fingerprints become fingerprints, candidate tags become candidate tags, and the tag
    [unknown-account] is kept; and nothing else becomes one of these. *)
Record keeps_kinds (f : str → str) : Prop := {
  kk_fp : ∀ t, fp_tag (f t) ↔ fp_tag t;
  kk_candidate : ∀ t, candidate_tag (f t) ↔ candidate_tag t;
  kk_unknown : ∀ t, f t = s2l "unknown-account" ↔ t = s2l "unknown-account";
}.
(** All fingerprints of the transactions are among [F]. *)
Definition only_fps (F : str → Prop) (tps : list transaction_postings) : Prop :=
  ∀ tp p t, tp ∈ tps → p ∈ tp_posts tp → has_fp p t → F t.

(** Two journals made in the same way, one with the old tags and one with the new, by
    any number of merges, also of ones that failed, with any hash iteration orders. *)
Inductive made_retagged (F : str → Prop) (f : str → str) : merger → merger → Prop :=
  | made_retagged_new : made_retagged F f merger_new merger_new
  | made_retagged_merge m m' ho ho' tps : made_retagged F f m m' → hash_order_ok ho → hash_order_ok ho' → only_fps F tps →
      made_retagged F f (merge ho m tps).1 (merge ho' m' (retag f <$> tps)).1.
(** The same for several inputs. *)
Definition retag_inputs (f : str → str) (sets : list (list transaction_postings)) : list (list transaction_postings) :=
  (λ tps : list transaction_postings, retag f <$> tps) <$> sets.

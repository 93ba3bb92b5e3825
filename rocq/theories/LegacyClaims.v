(** Specification vocabulary: what the option for legacy fingerprints does (C149). *)
From stdpp Require Import gmap list.
From Verif Require Import MergeClaims.
From Verif Require Import Base Types SpecBase CommentModel FingerprintClaims.

(** A fingerprint of the old form, without algorithm and version: both parts are of letters,
    digits, '_', '+' and '/'. *)
Definition old_form (ns f : str) : Prop := ∃ digest, f = s2l "fp-" ++ ns ++ s2l "-" ++ digest ∧ fp_part ns ∧ fp_part digest.
(** Read from a journal, the second posting has one more fingerprint, of the old form
    (unless the first has that already), and is the same in all else. *)
Definition one_more (ns : str) (p p' : posting) : Prop :=
  set_pcomment None p' = set_pcomment None p ∧
  let c := pi_comment (posting_internal_of p) in let c' := pi_comment (posting_internal_of p') in
  lines c' = lines c ∧ value_tags c' = value_tags c ∧ ∃ f, old_form ns f ∧ ∀ t, t ∈ tags c' ↔ t ∈ tags c ∨ t = f.
(** Transactions that are the same but for their postings. *)
Definition trn_one_more (ns : str) (t t' : transaction) : Prop :=
  set_tpostings [] t' = set_tpostings [] t ∧ Forall2 (one_more ns) (t_postings t) (t_postings t').
(** Both fail in the same way, or both succeed with results that are related. *)
Definition both {A} (P : A → A → Prop) (r r' : result A) : Prop :=
  match r, r' with
  | Ok a, Ok a' => P a a'
  | Err e, Err e' => e = e'
  | Panic, Panic => True
  | _, _ => False
  end.

(** Small vocabulary used in specifications. *)
From Verif Require Import Base Types.

(** The (zero based) positions in [l] of the elements passing the test [f], in order. *)
Fixpoint positions {A} (f : A → bool) (l : list A) : list nat :=
  match l with
  | [] => []
  | x :: l => (if f x then [0%nat] else []) ++ (S <$> positions f l)
  end.

(** Comparison of two things by a date attached to them, for sorting by date. *)
Definition by_key {A} (key : A → date) (a b : A) : bool := date_leb (key a) (key b).

(** A tag is a fingerprint, resp. a candidate tag, by its prefix. *)
Definition fp_tag (t : str) : Prop := ∃ s, t = s2l "fp-" ++ s.
Definition candidate_tag (t : str) : Prop := ∃ s, t = s2l "candidate-" ++ s.

(** Tags of a posting. *)
Definition has_tag (p : posting_internal) (t : str) : Prop := t ∈ tags (pi_comment p).
Definition has_fp (p : posting_internal) (f : str) : Prop := fp_tag f ∧ has_tag p f.
Definition unknown_account (p : posting_internal) : Prop := has_tag p (s2l "unknown-account").

(** Two postings have a fingerprint in common. *)
Definition share_fp (p q : posting_internal) : Prop := ∃ f, has_fp p f ∧ has_fp q f.

(** What [merge] demands of each posting: some fingerprint, no candidate tag. *)
Definition mergeable (p : posting_internal) : Prop :=
  (∃ f, has_fp p f) ∧ ∀ t, has_tag p t → ¬ candidate_tag t.

Definition tp_date (tp : transaction_postings) : date := t_date (ti_raw (tp_trn tp)).
(** All postings of a journal, in order. *)
Definition all_posts (tps : list transaction_postings) : list posting_internal := tps ≫= tp_posts.

(** No two postings of the list (at different places) have a fingerprint in common. *)
Definition fps_distinct (ps : list posting_internal) : Prop :=
  ∀ i j p q, ps !! i = Some p → ps !! j = Some q → share_fp p q → i = j.

Definition opt_list {A} (l : list A) : option (list A) :=
  match l with [] => None | _ => Some l end.

(** Specification vocabulary: applying the same rules again (C124). *)
From stdpp Require Import gmap list relations.
From Verif Require Import Base Types CommentModel MergeModel CmdModel SpecBase CmdClaims RulesModel RulesClaims.

(** What rules can look at and change: of the posting its account, a flag, the value
    of a key; of the transaction its description, a flag, the value of a key. *)
Inductive spot :=
  | AccountSpot | FlagSpot (t : str) | ValueSpot (k : str)
  | DescriptionSpot | TrnFlagSpot (t : str) | TrnValueSpot (k : str).

(** Whether the predicate holds can depend on this.  [PFlagTag m] depends on the
    flags that match [m]. *)
Inductive looks_at (X : text_env) : predicate → spot → Prop :=
  | look_all p ps x : p ∈ ps → looks_at X p x → looks_at X (PAll ps) x
  | look_any p ps x : p ∈ ps → looks_at X p x → looks_at X (PAny ps) x
  | look_not p x : looks_at X p x → looks_at X (PNot p) x
  | look_account m : looks_at X (PAccount m) AccountSpot
  | look_flags m t : string_ok X m t → looks_at X (PFlagTag m) (FlagSpot t)
  | look_flag t : looks_at X (PHasFlagTag t) (FlagSpot t)
  | look_key k : looks_at X (PHasValueTag k) (ValueSpot k)
  | look_value k m : looks_at X (PValueTag k m) (ValueSpot k)
  | look_description m : looks_at X (PDescription m) DescriptionSpot.
(** What an action changes itself. *)
Inductive changes : action → spot → Prop :=
  | change_account a : changes (ASetAccount a) AccountSpot
  | change_add_flag t : changes (AAddPostFlag t) (FlagSpot t)
  | change_remove_flag t : changes (ARemovePostFlag t) (FlagSpot t)
  | change_add_value k v : changes (AAddPostValue k v) (ValueSpot k)
  | change_remove_value k : changes (ARemovePostValue k) (ValueSpot k)
  | change_description r s : changes (AReplaceDescription r s) DescriptionSpot
  | change_add_trn_flag t : changes (AAddTrnFlag t) (TrnFlagSpot t)
  | change_remove_trn_flag t : changes (ARemoveTrnFlag t) (TrnFlagSpot t)
  | change_add_trn_value k v : changes (AAddTrnValue k v) (TrnValueSpot k)
  | change_remove_trn_value k : changes (ARemoveTrnValue k) (TrnValueSpot k).

Definition has_predicate (T : table) (p : predicate) : Prop :=
  ∃ name rs r, T !! name = Some rs ∧ r ∈ rs ∧ r_predicate r = p.
(** No rule looks at what some rule changes. *)
Definition looks_elsewhere (X : text_env) (T : table) : Prop :=
  ∀ p a x, has_predicate T p → has_action T a → looks_at X p x → ¬ changes a x.
(** What a replacement in the description has made is left alone by all of them. *)
Definition replaces_once (X : text_env) (T : table) : Prop :=
  ∀ r s r' s' d, has_action T (AReplaceDescription r s) → has_action T (AReplaceDescription r' s') →
    rx_replace X r s (rx_replace X r' s' d) = rx_replace X r' s' d.

(** No rule changes anything of the transaction besides its postings. *)
Definition leaves_transactions (T : table) : Prop :=
  ∀ a x, has_action T a → changes a x → x = AccountSpot ∨ (∃ t, x = FlagSpot t) ∨ ∃ k, x = ValueSpot k.
(** The chain "start" does something to postings with [g] only. *)
Definition only_for (X : text_env) (T : table) (g : posting_internal → Prop) : Prop :=
  ∀ rs r c, T !! s2l "start" = Some rs → r ∈ rs → holds_for X c (r_predicate r) → g (rc_post c).
(** The postings changed no longer have [g]. *)
Definition changed_done (g : posting_internal → Prop) (tps out : list transaction_postings) : Prop :=
  Forall2 (λ tp tp', Forall2 (λ p p', p' = p ∨ ¬ g p') (tp_posts tp) (tp_posts tp')) tps out.

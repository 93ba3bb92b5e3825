(** Specification vocabulary for the namespace of an import (C97). *)
From stdpp Require Import gmap list.
From Verif Require Import Base Types CmdModel Sha1 FingerprintModel NsClaims CmdClaims.
Local Open Scope nat_scope.

(** The namespace that the option asks for, for the account called [name]. *)
Inductive chosen : fp_namespace_opt → str → str → Prop :=
  | by_name name : chosen NsAccountName name name
  | by_text s name : chosen (NsFixed s) name s
  | by_hash name : chosen NsGenerated name (take 8 (base64 (sha1 (namespace_message name))))
  | by_table (t : gmap str str) name s : t !! name = Some s → chosen (NsLookup t) name s.
(** The fingerprint has the namespace, the last part before the hash; older kinds of
    fingerprint have no parts before it. *)
Definition in_namespace (ns f : str) : Prop :=
  ∃ before hash, f = s2l "fp-" ++ before ++ ns ++ s2l "-" ++ hash ∧ 45%N ∉ hash ∧
    (before = [] ∨ ∃ kind, before = kind ++ s2l ".1.").

(** C26: the source that a transaction read from the file is marked with; paths are
    quoted. *)
Definition named_source (E : env) (f : filespec) (tp tp' : transaction_postings) : Prop :=
  source_tag tp' = Some match source_tag tp, f with
    | Some s, _ => s
    | None, Stdio => s2l "<stdio>"
    | None, Path p => e_quote E p
    end.

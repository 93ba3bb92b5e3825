(** C64, C82: the tree of recognised text. *)
From Verif Require Import MergeClaims.
From Verif Require Import Base Types OcrModel OcrClaims OcrProofs PdfLaws2 PdfExamples.
Local Open Scope nat_scope.

(** C64: exactly the record sequences in order are accepted; the document has
    consecutive numbers and one part for each record. *)
Theorem C64_tree rs doc : from_tsv rs = Ok doc ↔
  ∃ ns, Forall2 (λ o n, ∃ r, o = Some r ∧ stands_for r n) rs ns ∧ in_order ns ∧ well_numbered doc ∧ nodes doc ≡ₚ ns.
Proof. exact (c64 rs doc). Qed.
Print Assumptions C64_tree.
Theorem C64_no_panic rs : from_tsv rs ≠ Panic.
Proof. exact (c64_no_panic rs). Qed.
Print Assumptions C64_no_panic.
(** Every document is read back from its parts in reading order. *)
Theorem C64_reading_order doc rs : well_numbered doc → Forall2 stands_for rs (nodes doc) → from_tsv (Some <$> rs) = Ok doc.
Proof. exact (c64_reading_order doc rs). Qed.
Print Assumptions C64_reading_order.
Example C64_ex : from_tsv (ex_records_of (ex_doc false)) = Ok (ex_doc false) ∧ length (nodes (ex_doc false)) = 58 ∧
  rmap (λ _, ()) (from_tsv (delete 0 (ex_records_of (ex_doc false)))) = Err EBadTree ∧
  rmap (λ _, ()) (from_tsv (ex_records_of (ex_doc false) ++ [Some (record_of (NWord 1 1 1 1 6 0 0 []))])) = Err EBadTree ∧
  rmap (λ _, ()) (from_tsv (ex_records_of (ex_doc false) ++ [Some (record_of (NWord 1 1 1 1 5 0 0 []))])) = Ok ().
Proof. split_and!; vm_compute; reflexivity. Qed.

(** C82 *)
Theorem C82_record_order rs rs' doc doc' : from_tsv rs = Ok doc → from_tsv rs' = Ok doc' → rs ≡ₚ rs' → doc = doc'.
Proof. exact (records_order rs rs' doc doc'). Qed.
Print Assumptions C82_record_order.
Example C82_ex : from_tsv (ex_by_level (ex_doc false)) = Ok (ex_doc false) ∧
  take 4 (map (option_map or_level) (ex_by_level (ex_doc false))) = map Some [1; 1; 2; 2]%Z ∧
  take 4 (map (option_map or_level) (ex_records_of (ex_doc false))) = map Some [1; 2; 3; 4]%Z.
Proof. split_and!; vm_compute; reflexivity. Qed.

(** The order of journals, in days of the calendar (C08). *)
From Verif Require Import MergeClaims MergeSpec.
From Verif Require Import Base Types SpecBase MergeModel MergeExamples NwCsvModel PaypalModel FingerprintModel OcrModel PdfModel PdfClaims PdfTable TimeClaims TimeProofs PropsMerge DateOrder.

Local Open Scope nat_scope.

(** C08: of two transactions in the journal the first is not on a later day, days
    being counted in the calendar. *)
Theorem C08_days m ho out i k a b x y : reachable m → hash_order_ok ho → build ho m = Ok out →
  i < k → out !! i = Some a → out !! k = Some b → day_number (tp_date a) x → day_number (tp_date b) y → (x ≤ y)%Z.
Proof. intros Hm Hho Hb. exact (sorted_days out i k a b x y (C08_date_order m ho out Hm Hho Hb)). Qed.
Print Assumptions C08_days.
(** Days before and after a leap day, and before 1970. *)
Example C08_days_ex : day_number (2020%Z, 2%N, 28%N) 18320 ∧ day_number (2020%Z, 3%N, 1%N) 18322 ∧ day_number (1969%Z, 12%N, 31%N) (-1).
Proof.
  split; [|split]; (apply day_number_iff; [|vm_compute; reflexivity]); unfold valid_day; cbn [fst snd];
    apply valid_date_days; vm_compute; split; discriminate.
Qed.

(** Specification vocabulary: what the clock of a time zone shows (C117). *)
From Verif Require Import Base Types NwCsvModel PaypalModel FingerprintModel OcrModel PdfModel PdfClaims.

(** The date after a date: the next day of the month if there is one, else the first
    of the next month if there is one in this year, else New Year. *)
Definition next_day (d d' : date) : Prop :=
  let '(y, m, n) := d in
  valid_date y m n ∧
  ((valid_date y m (n + 1) ∧ d' = (y, m, (n + 1)%N)) ∨
   (¬ valid_date y m (n + 1) ∧ valid_date y (m + 1) 1 ∧ d' = (y, (m + 1)%N, 1%N)) ∨
   (¬ valid_date y m (n + 1) ∧ ¬ valid_date y (m + 1) 1 ∧ d' = ((y + 1)%Z, 1%N, 1%N))).
(** The number of a day, counting from 1970-01-01. *)
Inductive day_number : date → Z → Prop :=
  | day_epoch : day_number (1970%Z, 1%N, 1%N) 0
  | day_next d d' n : day_number d n → next_day d d' → day_number d' (n + 1)
  | day_prev d d' n : day_number d' n → next_day d d' → day_number d (n - 1).
(** A clock that is [o] seconds ahead of UTC shows the date [d] and the time [t] at
    the instant [i], given in seconds and nanoseconds since 1970-01-01T00:00:00Z. *)
Definition shows (o : Z) (d : date) (t : time) (i : instant) : Prop :=
  let '(h, m, s, ns) := t in
  ∃ n, day_number d n ∧ (i.1 + o = n * 86400 + Z.of_N h * 3600 + Z.of_N m * 60 + Z.of_N s)%Z ∧ i.2 = ns.
Definition valid_day (d : date) : Prop := valid_date d.1.1 d.1.2 d.2.
Definition time_of_day (t : time) : Prop := let '(h, m, s, ns) := t in (h < 24 ∧ m < 60 ∧ s < 60)%N.

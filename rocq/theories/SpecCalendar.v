(** Small specification of the Gregorian calendar and of a shown time, independent of the
    model. A day is counted from 1 January 1970; the day after a day is known. *)
From Verif Require Export Bytes TextFacts.
Local Open Scope Z_scope.

Definition leap_year (y : Z) : Prop := (4 | y) /\ ~ (100 | y) \/ (400 | y).
(** Thirty days hath September. *)
Definition month_length (y m n : Z) : Prop :=
  (m = 4 \/ m = 6 \/ m = 9 \/ m = 11) /\ n = 30 \/
  (m = 1 \/ m = 3 \/ m = 5 \/ m = 7 \/ m = 8 \/ m = 10 \/ m = 12) /\ n = 31 \/
  m = 2 /\ leap_year y /\ n = 29 \/ m = 2 /\ ~ leap_year y /\ n = 28.
Inductive day_after : Z * Z * Z -> Z * Z * Z -> Prop :=
  | da_day y m d n : month_length y m n -> 1 <= d < n -> day_after (y, m, d) (y, m, d + 1)
  | da_month y m n : month_length y m n -> m < 12 -> day_after (y, m, n) (y, m + 1, 1)
  | da_year y : day_after (y, 12, 31) (y + 1, 1, 1).
Inductive date_of_day : Z -> Z * Z * Z -> Prop :=
  | dd_epoch : date_of_day 0 (1970, 1, 1)
  | dd_after n x y : date_of_day n x -> day_after x y -> date_of_day (n + 1) y
  | dd_before n x y : date_of_day n y -> day_after x y -> date_of_day (n - 1) x.

(** A number in decimal: filled up with zeros to some width, or as it is. *)
Definition decimal (n : Z) (t : bytes) : Prop := t <> [] /\ Forall is_digit t /\ dval t = n.
Definition filled (w : nat) (n : Z) (t : bytes) : Prop :=
  decimal n t /\ (w <= length t)%nat /\ ((w < length t)%nat -> head t <> Some x30).
Definition year_text (y : Z) (t : bytes) : Prop :=
  0 <= y /\ filled 4 y t \/ y < 0 /\ exists u, t = x2d :: u /\ filled 4 (- y) u.
(** [t] seconds after the beginning of 1970 at Greenwich, shown to the minute or second
    where clocks are [off] seconds ahead. *)
Definition shown_parts (off t : Z) (ty tm td th tn ts : bytes) (dw : nat) : Prop :=
  exists day y m d h n s, date_of_day day (y, m, d) /\ 0 <= h < 24 /\ 0 <= n < 60 /\ 0 <= s < 60 /\
    86400 * day + 3600 * h + 60 * n + s = t + off /\
    year_text y ty /\ filled 2 m tm /\ filled dw d td /\ filled 2 h th /\ filled 2 n tn /\ filled 2 s ts.
Definition shows_minute (zone : bytes) (off t : Z) (text : bytes) : Prop :=
  exists ty tm td th tn ts, shown_parts off t ty tm td th tn ts 1 /\
    text = ty ++ bs "-" ++ tm ++ bs "-" ++ td ++ bs " " ++ th ++ bs ":" ++ tn ++ bs " " ++ zone.
Definition shows_second (zone : bytes) (off t : Z) (text : bytes) : Prop :=
  exists ty tm td th tn ts, shown_parts off t ty tm td th tn ts 2 /\
    text = ty ++ bs "-" ++ tm ++ bs "-" ++ td ++ bs " " ++ th ++ bs ":" ++ tn ++ bs ":" ++ ts ++ bs " " ++ zone.
(** Where 64 bits suffice for the seconds the package counts: since the beginning of the
    year -292277022399. *)
Definition in_range (off t : Z) : Prop := - 9223372028715321600 <= t + off < 2 ^ 64 - 9223372028715321600.

(** Model of Go's package time as far as the commands use it to show a time:
    [time.Unix(t, 0).Format(timeFormat)], cmd/journal/journal.go:109, 144 and 210,
    cmd/secrets/secrets.go:119, 136 and 219, cmd/secretscli/commands.go:178 and 194,
    exp/fcrypt/fcrypt.go:462, 465, 484 and 485. No proofs here. *)
From Verif Require Export Text.
Local Open Scope Z_scope.

(** A location: abbreviation and offset in seconds east of Greenwich of the zone in use
    at an instant (Location.lookup). Where the abbreviations come from is not modelled. *)
Notation location := (Z -> bytes * Z).

(** [Time.abs]: seconds since the beginning of the year -292277022399, in 64 bits.
    The constant is unixToInternal + internalToAbsolute. *)
Definition abs_epoch : Z := 9223372028715321600.
Definition abs_seconds (off t : Z) : Z := to_u 64 (t + off + abs_epoch).

(** [isLeap]. *)
Definition is_leap (y : Z) : bool :=
  bool_decide (y mod 4 = 0) && (negb (bool_decide (y mod 100 = 0)) || bool_decide (y mod 400 = 0)).
(** [daysBefore]. *)
Definition days_before : list Z := [0; 31; 59; 90; 120; 151; 181; 212; 243; 273; 304; 334; 365].
(** [absDate] from the day of the year on: month and day. *)
Definition month_day (leap : bool) (yday : Z) : Z * Z :=
  if leap && bool_decide (yday = 59) then (2, 29) else
  let day := if leap && bool_decide (59 < yday) then yday - 1 else yday in
  let month := day / 31 in
  let end_ := nth (Z.to_nat (month + 1)) days_before 0 in
  if bool_decide (end_ <= day) then (month + 2, day - end_ + 1)
  else (month + 1, day - nth (Z.to_nat month) days_before 0 + 1).
(** [absDate] up to there: the year and the day of the year, for a number of days since the
    beginning of the year -292277022399. *)
Definition year_day (d : Z) : Z * Z :=
  let n := d / 146097 in let y := 400 * n in let d := d - 146097 * n in
  let n := d / 36524 in let n := n - n / 4 in let y := y + 100 * n in let d := d - 36524 * n in
  let n := d / 1461 in let y := y + 4 * n in let d := d - 1461 * n in
  let n := d / 365 in let n := n - n / 4 in let y := y + n in let d := d - 365 * n in
  (y + -292277022399, d).

Record civil := Civil { cYear : Z; cMonth : Z; cDay : Z; cHour : Z; cMin : Z; cSec : Z }.
(** [absDate] and [absClock]. *)
Definition civil_of (a : Z) : civil :=
  let '(y, yd) := year_day (a / 86400) in
  let '(m, d) := month_day (is_leap y) yd in
  let s := a mod 86400 in
  Civil y m d (s / 3600) (s mod 3600 / 60) (s mod 60).

(** [appendInt]. *)
Definition append_int (width : nat) (z : Z) : bytes :=
  if decide (z < 0) then x2d :: pad0 width (show (- z)) else pad0 width (show z).
(** "MST" in a layout: the abbreviation, or the offset where there is none. Go's division
    truncates, so the offset is divided by sixty without its sign. *)
Definition zone_text (z : bytes * Z) : bytes :=
  if decide (fst z = []) then
    let m := Z.quot (snd z) 60 in
    (if decide (m < 0) then x2d else x2b) :: append_int 2 (Z.abs m / 60) ++ append_int 2 (Z.abs m mod 60)
  else fst z.

(** The pieces of a layout, and [Time.AppendFormat]. *)
Inductive piece := PYear | PMonth0 | PDay | PDay0 | PHour | PMin0 | PSec0 | PZone | PText (s : bytes).
Definition put_piece (z : bytes * Z) (c : civil) (p : piece) : bytes :=
  match p with
  | PYear => append_int 4 (cYear c)
  | PMonth0 => append_int 2 (cMonth c)
  | PDay => append_int 0 (cDay c)
  | PDay0 => append_int 2 (cDay c)
  | PHour => append_int 2 (cHour c)
  | PMin0 => append_int 2 (cMin c)
  | PSec0 => append_int 2 (cSec c)
  | PZone => zone_text z
  | PText s => s
  end.
(** "2006-01-2 15:04 MST" of cmd/journal/journal.go:109, cmd/secrets/secrets.go:119 and
    exp/fcrypt/fcrypt.go:462, and "2006-01-02 15:04:05 MST" of
    cmd/secretscli/commands.go:178, as nextStdChunk takes them apart. *)
Definition to_minutes : list piece :=
  [PYear; PText (bs "-"); PMonth0; PText (bs "-"); PDay; PText (bs " "); PHour; PText (bs ":"); PMin0; PText (bs " "); PZone].
Definition to_seconds : list piece :=
  [PYear; PText (bs "-"); PMonth0; PText (bs "-"); PDay0; PText (bs " "); PHour; PText (bs ":"); PMin0; PText (bs ":"); PSec0; PText (bs " "); PZone].
(** [time.Unix(t, 0).Format(layout)]. *)
Definition format_time (l : list piece) (loc : location) (t : Z) : bytes :=
  let z := loc t in concat (map (put_piece z (civil_of (abs_seconds (snd z) t))) l).
Definition minute_text : location -> Z -> bytes := format_time to_minutes.
Definition second_text : location -> Z -> bytes := format_time to_seconds.

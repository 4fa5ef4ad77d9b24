(** Model of [time.ParseDuration] of the standard library (Go 1.23). A duration is a
    number of nanoseconds. Floating point is IEEE 754 binary64, by the standard library
    of Coq. No proofs here. *)
From Coq Require Import Floats.SpecFloat.
From Verif Require Export Text.
Local Open Scope Z_scope.

(** *** float64 *)
Definition f_of_int (n : Z) : spec_float := binary_normalize 53 1024 n 0 false.
Definition f_mul : spec_float -> spec_float -> spec_float := SFmul 53 1024.
Definition f_div : spec_float -> spec_float -> spec_float := SFdiv 53 1024.
Definition f_add : spec_float -> spec_float -> spec_float := SFadd 53 1024.
(** [uint64(x)] for 0 <= x < 2^64; 0 for what cannot occur. *)
Definition f_to_int (x : spec_float) : Z :=
  match x with S754_finite false m e => if decide (0 <= e) then Z.pos m * 2 ^ e else Z.pos m / 2 ^ (- e) | _ => 0 end.

Definition is_num (c : byte) : bool := bool_decide (48 <= bz c <= 57).
(** [leadingInt]. *)
Fixpoint leading_int (x : Z) (s : bytes) : option (Z * bytes) :=
  match s with
  | c :: r =>
      if is_num c then
        if decide (x > 2 ^ 63 / 10) then None else
        let x := x * 10 + (bz c - 48) in
        if decide (x > 2 ^ 63) then None else leading_int x r
      else Some (x, s)
  | [] => Some (x, s)
  end.
(** [leadingFraction]: the number, its scale and the rest. *)
Fixpoint leading_fraction (x : Z) (scale : spec_float) (overflow : bool) (s : bytes) : Z * spec_float * bytes :=
  match s with
  | c :: r =>
      if is_num c then
        if overflow then leading_fraction x scale true r else
        if decide (x > (2 ^ 63 - 1) / 10) then leading_fraction x scale true r else
        let y := x * 10 + (bz c - 48) in
        if decide (y > 2 ^ 63) then leading_fraction x scale true r else
        leading_fraction y (f_mul scale (f_of_int 10)) false r
      else (x, scale, s)
  | [] => (x, scale, s)
  end.
(** The text of a unit: up to the next "." or digit. *)
Fixpoint unit_text (s : bytes) : bytes * bytes :=
  match s with
  | c :: r => if bool_decide (c = x2e) || is_num c then ([], s) else let '(u, r) := unit_text r in (c :: u, r)
  | [] => ([], [])
  end.
(** [unitMap]; the micro sign is U+00B5 or U+03BC. *)
Definition unit_of (u : bytes) : option Z :=
  if decide (u = bs "ns") then Some 1
  else if decide (u = bs "us" \/ u = [xc2; xb5; x73] \/ u = [xce; xbc; x73]) then Some 1000
  else if decide (u = bs "ms") then Some 1000000
  else if decide (u = bs "s") then Some 1000000000
  else if decide (u = bs "m") then Some 60000000000
  else if decide (u = bs "h") then Some 3600000000000
  else None.
(** One round of the loop: a number with its unit, in nanoseconds, and the rest. *)
Definition duration_part (s : bytes) : option (Z * bytes) :=
  match s with
  | [] => None
  | c :: _ =>
      if negb (bool_decide (c = x2e) || is_num c) then None else
      match leading_int 0 s with
      | None => None
      | Some (v, s1) =>
          let pre := negb (bool_decide (length s1 = length s)) in
          let '(f, scale, s2, post) :=
            match s1 with
            | p :: r => if decide (p = x2e) then let '(f, scale, s2) := leading_fraction 0 (f_of_int 1) false r in (f, scale, s2, negb (bool_decide (length s2 = length r)))
                        else (0, f_of_int 1, s1, false)
            | [] => (0, f_of_int 1, s1, false)
            end in
          if negb pre && negb post then None else
          let '(u, s3) := unit_text s2 in
          if decide (u = []) then None else
          match unit_of u with
          | None => None
          | Some unit =>
              if decide (v > 2 ^ 63 / unit) then None else
              let v := v * unit in
              if decide (f > 0) then
                let v := v + f_to_int (f_mul (f_of_int f) (f_div (f_of_int unit) scale)) in
                if decide (v > 2 ^ 63) then None else Some (v, s3)
              else Some (v, s3)
          end
      end
  end.
(** The loop; additions are those of uint64. *)
Fixpoint duration_loop (n : nat) (d : Z) (s : bytes) : option Z :=
  match s, n with
  | [], _ => Some d
  | _, O => None
  | _, S n =>
      match duration_part s with
      | None => None
      | Some (v, s) =>
          let d := (d + v) mod 2 ^ 64 in
          if decide (d > 2 ^ 63) then None else duration_loop n d s
      end
  end.
(** [time.ParseDuration]. *)
Definition parse_duration (s : bytes) : option Z :=
  let neg := match s with c :: _ => bool_decide (c = x2d) | [] => false end in
  let s := match s with c :: r => if decide (c = x2d \/ c = x2b) then r else s | [] => s end in
  if decide (s = bs "0") then Some 0 else
  if decide (s = []) then None else
  match duration_loop (length s) 0 s with
  | None => None
  | Some d => if neg then Some (- d) else if decide (d > 2 ^ 63 - 1) then None else Some d
  end.

(** Durations with a decimal point: what a fraction of a unit is in binary64. *)
From Coq Require Import Floats.SpecFloat.
From Verif Require Export SpecMains.
Local Open Scope Z_scope.

(** The double nearest to an integer, and the integer below a double that is not
    negative. *)
Definition double (z : Z) : spec_float := binary_normalize 53 1024 z 0 false.
Definition below (x : spec_float) : Z :=
  match x with S754_finite false m e => Z.shiftl (Z.pos m) e | _ => 0 end.
(** The digits after the point count for digits * (unit / 10^k), each operation rounded
    to a double, the result cut to whole nanoseconds. *)
Definition fraction (fs : bytes) (unit : Z) : Z :=
  below (SFmul 53 1024 (double (number fs)) (SFdiv 53 1024 (double unit) (double (10 ^ Z.of_nat (length fs))))).
(** Of the digits after the point those count whose number is at most 2^63; the others
    are lost. *)
Definition kept (fs lost : bytes) : Prop :=
  number fs <= 2 ^ 63 /\ match lost with c :: _ => 2 ^ 63 < number (fs ++ [c]) | [] => True end.

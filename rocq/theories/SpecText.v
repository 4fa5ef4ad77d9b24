(** Specification vocabulary for decimal text. *)
From Verif Require Export Bytes.
Local Open Scope Z_scope.

(** An ASCII digit, and the number a string of digits denotes. *)
Definition is_digit (b : byte) : Prop := 48 <= bz b <= 57.
Definition dval (s : bytes) : Z := fold_left (fun acc b => 10 * acc + (bz b - 48)) s 0.

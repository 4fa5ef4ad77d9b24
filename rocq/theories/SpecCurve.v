(** What Curve25519 and Ed25519 are, in congruences between integers (RFC 7748, 4.1 and
    RFC 8032, 5.1). *)
From Verif Require Export Bytes.
Local Open Scope Z_scope.

Definition p25519 : Z := 2 ^ 255 - 19.
Definition modp (a b : Z) : Prop := (p25519 | a - b).

(** -x^2 + y^2 = 1 + d x^2 y^2, with d = -121665/121666. *)
Definition on_ed (x y : Z) : Prop := modp (121666 * (y * y - x * x - 1)) (- 121665 * (x * x * y * y)).
(** (x3, y3) is the sum of (x1, y1) and (x2, y2). *)
Definition ed_sum (x1 y1 x2 y2 x3 y3 : Z) : Prop :=
  modp (x3 * (121666 - 121665 * (x1 * x2 * y1 * y2))) (121666 * (x1 * y2 + x2 * y1)) /\
  modp (y3 * (121666 + 121665 * (x1 * x2 * y1 * y2))) (121666 * (y1 * y2 + x1 * x2)).
(** u is the u-coordinate on Curve25519 of the points of Ed25519 with this y. *)
Definition u_of (u y : Z) : Prop := modp (u * (1 - y)) (1 + y).

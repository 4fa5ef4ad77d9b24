(** DER (X.690) for the types used, and PEM armour (RFC 7468), stated without the
    model's functions. *)
From Verif Require Export Bytes.
Local Open Scope Z_scope.

(** Definite lengths: short form below 128, else the fewest length octets. *)
Inductive length_octets : Z -> bytes -> Prop :=
  | lo_short n : 0 <= n < 128 -> length_octets n [zb n]
  | lo_long n k : 128 <= n -> 256 ^ (Z.of_nat k - 1) <= n < 256 ^ Z.of_nat k ->
      length_octets n (zb (128 + Z.of_nat k) :: be k n).
(** A primitive or constructed element with a one-octet identifier. *)
Definition element (tag : byte) (contents out : bytes) : Prop :=
  exists l, length_octets (zlen contents) l /\ out = tag :: l ++ contents.
(** INTEGER contents: two's complement in the fewest octets. *)
Definition int_contents (z : Z) (c : bytes) : Prop :=
  exists k, c = be (S k) z /\ - 2 ^ (8 * Z.of_nat k + 7) <= z < 2 ^ (8 * Z.of_nat k + 7) /\
    (k <> O -> ~ (- 2 ^ (8 * Z.of_nat k - 1) <= z < 2 ^ (8 * Z.of_nat k - 1))).

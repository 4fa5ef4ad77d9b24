(** Curve25519 and Ed25519, as RFC 7748 and RFC 8032 define them: the arithmetic behind
    golang.org/x/crypto/nacl/box (common/public/crypto.go:225, :254, :263, :309 and :457) and
    crypto/ed25519 (common/public/crypto.go:230, :317 and :334). Points are
    kept in affine coordinates, where Go keeps them in extended ones, and the powers are
    plain square and multiply. No proofs here but that two points are on the curve. *)
From Verif Require Export Curve Fp.
Local Open Scope Z_scope.

(** *** The curve: -x^2 + y^2 = 1 + d x^2 y^2, d = -121665/121666 (RFC 8032, 5.1) *)
Definition ed_d : fe := fe_of 37095705934669439343138083508754565189542113879843219016388785533085940283555.
(** A square root of -1. *)
Definition ed_i : fe := fe_of 19681161376707505956807079304988542015446066515923890162744021073123829784752.
Definition fe_eqb (a b : fe) : bool := fv a =? fv b.
Definition on_curve (x y : fe) : bool :=
  fe_eqb (fsub (fmul y y) (fmul x x)) (fadd fone (fmul (fmul ed_d (fmul x x)) (fmul y y))).
Record epoint := EPoint { ex : fe; ey : fe; e_on : on_curve ex ey = true }.

Definition base_x : fe := fe_of 15112221349535400772501151409588531511454012693041857206046113283949847762202.
Definition base_y : fe := fe_of 46316835694926478169428394003475163141307993866256225615783033603165251855960.
Lemma zero_on : on_curve fzero fone = true.
Proof. reflexivity. Qed.
Lemma base_on : on_curve base_x base_y = true.
Proof. vm_compute. reflexivity. Qed.
Definition ezero : epoint := EPoint fzero fone zero_on.
Definition ebase : epoint := EPoint base_x base_y base_on.

(** The point with these coordinates; there is always one where this is used. *)
Definition epoint_at (x y : fe) : option epoint :=
  match bool_dec (on_curve x y) true with
  | left H => Some (EPoint x y H)
  | right _ => None
  end.
Definition esum_x (p q : epoint) : fe :=
  fdiv (fadd (fmul (ex p) (ey q)) (fmul (ex q) (ey p))) (fadd fone (fmul (fmul ed_d (fmul (ex p) (ex q))) (fmul (ey p) (ey q)))).
Definition esum_y (p q : epoint) : fe :=
  fdiv (fadd (fmul (ey p) (ey q)) (fmul (ex p) (ex q))) (fsub fone (fmul (fmul ed_d (fmul (ex p) (ex q))) (fmul (ey p) (ey q)))).
Definition eadd (p q : epoint) : epoint := default ezero (epoint_at (esum_x p q) (esum_y p q)).
Definition eneg (p : epoint) : epoint := default ezero (epoint_at (fopp (ex p)) (ey p)).
(** Double and add. *)
Fixpoint emulp (n : positive) (p : epoint) : epoint :=
  match n with
  | xH => p
  | xO n => emulp n (eadd p p)
  | xI n => eadd p (emulp n (eadd p p))
  end.
Definition emul (z : Z) (p : epoint) : epoint :=
  match z with
  | Z0 => ezero
  | Zpos n => emulp n p
  | Zneg n => eneg (emulp n p)
  end.

(** *** Encoding (RFC 8032, 5.1.2): y, with the parity of x in the top bit *)
Definition parity (a : fe) : Z := fv a mod 2.
Definition eenc (p : epoint) : bytes := lend 32 (fv (ey p) + 2 ^ 255 * parity (ex p)).
(** Decoding (RFC 8032, 5.1.3), but as lenient as Go's [edwards25519.Point.SetBytes]: y need
    not be reduced, and the sign of a zero x is not looked at. *)
Definition sqrt_exp : positive := Z.to_pos ((2 ^ 255 - 19 + 3) / 8).
Definition fsqrt (w : fe) : option fe :=
  let c := fpow w sqrt_exp in
  if fe_eqb (fmul c c) w then Some c
  else if fe_eqb (fmul (fmul c ed_i) (fmul c ed_i)) w then Some (fmul c ed_i) else None.
Definition edec (b : bytes) : option epoint :=
  if negb (length b =? 32)%nat then None
  else
    let y := fe_of (unle b mod 2 ^ 255) in
    let sign := unle b / 2 ^ 255 in
    match fsqrt (fdiv (fsub (fmul y y) fone) (fadd (fmul ed_d (fmul y y)) fone)) with
    | None => None
    | Some x => epoint_at (if parity x =? sign then x else fopp x) y
    end.

(** *** X25519 (RFC 7748, 5): one step of the ladder on (x2 : z2) and (x3 : z3) *)
Definition a24 : fe := fe_of 121665.
Definition ladder_step (x1 : fe) (s : fe * fe * (fe * fe)) : fe * fe * (fe * fe) :=
  let '(x2, z2, (x3, z3)) := s in
  let a := fadd x2 z2 in
  let aa := fmul a a in
  let b := fsub x2 z2 in
  let bb := fmul b b in
  let e := fsub aa bb in
  let da := fmul (fsub x3 z3) a in
  let cb := fmul (fadd x3 z3) b in
  (fmul aa bb, fmul e (fadd aa (fmul a24 e)),
   (fmul (fadd da cb) (fadd da cb), fmul x1 (fmul (fsub da cb) (fsub da cb)))).
(** The two pairs are exchanged around a step whose bit is set; the RFC puts off the second
    exchange until the next step. The bits are taken from the top. *)
Definition swap_pairs (b : bool) (s : fe * fe * (fe * fe)) : fe * fe * (fe * fe) := if b then (s.2, s.1) else s.
Fixpoint ladder (n : nat) (k : Z) (x1 : fe) : fe * fe * (fe * fe) :=
  match n with
  | O => ((fone, fzero), (x1, fone))
  | S n => swap_pairs (Z.odd k) (ladder_step x1 (swap_pairs (Z.odd k) (ladder n (k / 2) x1)))
  end.
Definition mont (k : Z) (u : fe) : fe :=
  let s := ladder 255 k u in fmul (s.1).1 (finv (s.1).2).
(** The top bit of the u-coordinate is dropped and the scalar clamped. *)
Definition x25519_of (k u : bytes) : bytes := lend 32 (fv (mont (clamp k) (fe_of (unle u mod 2 ^ 255)))).

Definition curve25519 : Curve := {|
  x25519 := x25519_of;
  point := epoint;
  pzero := ezero;
  padd := eadd;
  pmul := emul;
  pbase := ebase;
  penc := eenc;
  pdec := edec;
|}.

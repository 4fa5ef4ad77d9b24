(** C80: the curves themselves. *)
From Verif Require Import CurveClaims RealClaims PublicFacts.
From Coq Require Import Znumtheory.
Local Open Scope Z_scope.

(** C80. *)
Theorem C80_primes : prime p25519 /\ prime ed_order.
Proof. exact the_primes. Qed.
Print Assumptions C80_primes.

(** The points are the solutions of the equation. *)
Theorem C80_points :
  forall x y, (exists p, cx p = x /\ cy p = y) <-> 0 <= x < p25519 /\ 0 <= y < p25519 /\ on_ed x y.
Proof. exact points_exactly. Qed.
Print Assumptions C80_points.

Theorem C80_coordinates :
  forall p q, cx p = cx q -> cy p = cy q -> p = q.
Proof. exact coords_inj. Qed.
Print Assumptions C80_coordinates.

(** Two points have a sum, and one only. *)
Theorem C80_sum :
  forall p q r, eadd p q = r <-> ed_sum (cx p) (cy p) (cx q) (cy q) (cx r) (cy r).
Proof. exact sum_exactly. Qed.
Print Assumptions C80_sum.

Theorem C80_group :
  cx ezero = 0 /\ cy ezero = 1 /\
  forall p q r, eadd ezero p = p /\ eadd p q = eadd q p /\ eadd p (eadd q r) = eadd (eadd p q) r /\
    eadd (eneg p) p = ezero /\ cy (eneg p) = cy p /\ modp (cx (eneg p)) (- cx p).
Proof. exact the_group. Qed.
Print Assumptions C80_group.

Theorem C80_multiples :
  forall p a b, emul 0 p = ezero /\ emul 1 p = p /\ emul (a + b) p = eadd (emul a p) (emul b p) /\ emul (a * b) p = emul a (emul b p) /\ emul (- a) p = eneg (emul a p).
Proof. exact the_multiples. Qed.
Print Assumptions C80_multiples.

(** The base point: y = 4/5 and x even. *)
Theorem C80_base :
  modp (5 * cy ebase) 4 /\ cx ebase mod 2 = 0 /\ cx ebase = 15112221349535400772501151409588531511454012693041857206046113283949847762202.
Proof. exact base_is. Qed.
Print Assumptions C80_base.

Theorem C80_order :
  forall a, emul a ebase = ezero <-> (ed_order | a).
Proof. exact base_order. Qed.
Print Assumptions C80_order.

Theorem C80_encode :
  forall p, length (eenc p) = 32%nat /\ unle (eenc p) = cy p + 2 ^ 255 * (cx p mod 2).
Proof. exact encode_exactly. Qed.
Print Assumptions C80_encode.

(** y need not be reduced, and the sign of a zero x is not looked at. *)
Theorem C80_decode :
  forall b p, edec b = Some p <-> length b = 32%nat /\ modp (unle b mod 2 ^ 255) (cy p) /\ (cx p = 0 \/ cx p mod 2 = unle b / 2 ^ 255).
Proof. exact decode_exactly. Qed.
Print Assumptions C80_decode.

(** X25519 multiplies: on the u-coordinate of a point, other than 0, it gives that of the
    multiple, or 0 for the neutral point. *)
Theorem C80_x25519 :
  forall k u p, ~ modp (unle u mod 2 ^ 255) 0 -> u_of (unle u mod 2 ^ 255) (cy p) ->
    exists u', 0 <= u' < p25519 /\ x25519_of k u = lend 32 u' /\
      (emul (clamp k) p = ezero -> u' = 0) /\ (emul (clamp k) p <> ezero -> u_of u' (cy (emul (clamp k) p))).
Proof. exact x25519_exactly. Qed.
Print Assumptions C80_x25519.

(** The scalars: a multiple of 8 from 2^254 up, so never a multiple of the order. *)
Theorem C80_clamp :
  forall b, (exists j, clamp b = 8 * j /\ 2 ^ 254 <= clamp b < 2 ^ 255) /\ emul (clamp b) ebase <> ezero.
Proof. exact clamp_exactly. Qed.
Print Assumptions C80_clamp.

Theorem C80_dh :
  forall a b, x25519_of a (x25519_of b nine) = x25519_of b (x25519_of a nine).
Proof. exact dh_exactly. Qed.
Print Assumptions C80_dh.

(** So all that the other properties assume of the curve, and of the primitives, holds. *)
Theorem C80_laws : CurveLaws (K := curve25519) /\ CryptoLaws (C := real (K := curve25519)).
Proof. exact the_laws. Qed.
Print Assumptions C80_laws.

(** For instance C18, C20 and C76, with nothing assumed. *)
Theorem C80_roundtrip :
  forall d seed m g ep nonce g',
    length d = 32%nat -> length ep = 32%nat -> length nonce = 24%nat -> delivers g (ep ++ nonce) g' -> 1 <= zlen m < 2 ^ 31 ->
    exists c, pub_encrypt (C := real25519) (kPub (keypair (C := real25519) d seed)) m g = Ret (Some c, g') /\
      pub_decrypt (C := real25519) (Some (keypair (C := real25519) d seed)) c = Ret (Some m).
Proof. exact roundtrip_25519. Qed.
Print Assumptions C80_roundtrip.

Theorem C80_sign :
  forall d seed m, length seed = 32%nat ->
    exists sig, sign (C := real25519) (Some (keypair (C := real25519) d seed)) m = Ret (Some sig) /\
      length sig = 64%nat /\ verify (C := real25519) (kPub (keypair (C := real25519) d seed)) m sig = Ret true.
Proof. exact sign_25519. Qed.
Print Assumptions C80_sign.

Theorem C80_key_exchange :
  forall da sa db sb, length da = 32%nat -> length db = 32%nat ->
    key_exchange (C := real25519) (Some (keypair (C := real25519) da sa)) (kPub (keypair (C := real25519) db sb)) =
    key_exchange (C := real25519) (Some (keypair (C := real25519) db sb)) (kPub (keypair (C := real25519) da sa)).
Proof. exact exchange_25519. Qed.
Print Assumptions C80_key_exchange.

(** There are points; 9 is the u-coordinate of the base point. *)
Example C80_nonvacuous : u_of (unle nine mod 2 ^ 255) (cy ebase) /\ ~ modp (unle nine mod 2 ^ 255) 0 /\ edec (eenc ebase) = Some ebase.
Proof. exact base_nine. Qed.

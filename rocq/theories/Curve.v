(** The primitives as golang.org/x/crypto and the standard library define them, over the
    curve: X25519 (RFC 7748) and the group of Ed25519 (RFC 8032) are parameters, with
    their laws; all else is [Hash] and [Salsa]. No proofs here. *)
From Verif Require Export Crypto Salsa.
Local Open Scope Z_scope.

(** The order of the base point of Ed25519. *)
Definition ed_order : Z := 2 ^ 252 + 27742317777372353535851937790883648493.

Class Curve := {
  (** X25519: scalar and u-coordinate, 32 bytes each *)
  x25519 : bytes -> bytes -> bytes;
  (** the points, their sum and multiples, the base point, and the encoding *)
  point : Type;
  pzero : point;
  padd : point -> point -> point;
  pmul : Z -> point -> point;
  pbase : point;
  penc : point -> bytes;
  pdec : bytes -> option point;
}.
(** The u-coordinate of X25519's base point. *)
Definition nine : bytes := x09 :: zeros 31.
Class CurveLaws `{K : Curve} : Prop := {
  x25519_length : forall k u, length (x25519 k u) = 32%nat;
  x25519_dh : forall a b, length a = 32%nat -> length b = 32%nat -> x25519 a (x25519 b nine) = x25519 b (x25519 a nine);
  padd_zero : forall p, padd pzero p = p;
  padd_assoc : forall p q r, padd p (padd q r) = padd (padd p q) r;
  pmul_zero : forall p, pmul 0 p = pzero;
  pmul_add : forall a b p, pmul (a + b) p = padd (pmul a p) (pmul b p);
  pmul_mul : forall a b p, pmul (a * b) p = pmul a (pmul b p);
  pbase_order : forall a, pmul a pbase = pzero <-> (ed_order | a);
  penc_length : forall p, length (penc p) = 32%nat;
  pdec_enc : forall p, pdec (penc p) = Some p;
}.

Section WithCurve.
Context `{K : Curve}.
(** *** nacl/box: common/public/crypto.go:225, :254, :263, :309 and :457 *)
Definition box_public (k : bytes) : bytes := x25519 k nine.
Definition box_precompute (peer k : bytes) : bytes := hsalsa (x25519 k peer) (zeros 16).

(** *** crypto/ed25519: common/public/crypto.go:230, :317 and :334 *)
Definition clamp (b : bytes) : Z := Z.lor (Z.land (unle b) (2 ^ 254 - 8)) (2 ^ 254).
Definition ed_scalar (seed : bytes) : Z := clamp (take 32 (sha_512 seed)).
Definition ed_public (seed : bytes) : bytes := penc (pmul (ed_scalar seed) pbase).
(** [ed25519.Sign]: a private key is the seed and the public key. *)
Definition ed_signature (key m : bytes) : bytes :=
  let seed := take 32 key in
  let pub := drop 32 key in
  let r := unle (sha_512 (drop 32 (sha_512 seed) ++ m)) mod ed_order in
  let R := penc (pmul r pbase) in
  let k := unle (sha_512 (R ++ pub ++ m)) mod ed_order in
  R ++ lend 32 ((r + k * ed_scalar seed) mod ed_order).
(** [ed25519.Verify]: the scalar must be reduced, and the point is recomputed. *)
Definition ed_check (pub m sig : bytes) : bool :=
  let R := take 32 sig in
  let s := unle (drop 32 sig) in
  match pdec pub with
  | None => false
  | Some A =>
      let k := unle (sha_512 (R ++ pub ++ m)) mod ed_order in
      bool_decide (length sig = 64%nat) && bool_decide (s < ed_order) &&
      bool_decide (R = penc (padd (pmul (- k) A) (pmul s pbase)))
  end.

Definition real : Crypto := {|
  sbox_seal := secretbox_seal;
  sbox_open := secretbox_open;
  scrypt_raw p s N r q := scrypt_of p s N r q 32;
  box_pub := box_public;
  box_shared := box_precompute;
  ed_pub := ed_public;
  ed_sign := ed_signature;
  ed_verify := ed_check;
  hmac_sha1 := hmac sha_1;
  hmac_sha256 := hmac sha_256;
  sha256 := sha_256;
|}.
End WithCurve.

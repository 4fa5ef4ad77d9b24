(** Primitives the code calls in golang.org/x/crypto and the standard library.
    They are parameters: a [Crypto] is any implementation, and [CryptoLaws]
    states what the theorems need from it. Nothing here is an axiom; Toy.v gives
    an instance, so the laws are jointly satisfiable. No proofs here. *)
From Verif Require Export Bytes.
Local Open Scope Z_scope.

Class Crypto := {
  (** nacl/secretbox: key, nonce, message -> tag and ciphertext *)
  sbox_seal : bytes -> bytes -> bytes -> bytes;
  sbox_open : bytes -> bytes -> bytes -> option bytes;
  (** scrypt's derivation proper (parameters already checked), 32 bytes:
      passphrase, salt, N, r, p *)
  scrypt_raw : bytes -> bytes -> Z -> Z -> Z -> bytes;
  (** nacl/box: public key of a private key; shared key of peer public and own
      private key ([box.Precompute]) *)
  box_pub : bytes -> bytes;
  box_shared : bytes -> bytes -> bytes;
  (** crypto/ed25519: public key of a 32-byte seed; signature by a 64-byte
      private key (seed, then public key); verification of (public key, message,
      signature) *)
  ed_pub : bytes -> bytes;
  ed_sign : bytes -> bytes -> bytes;
  ed_verify : bytes -> bytes -> bytes -> bool;
  (** hashes and MACs: (key, message) *)
  hmac_sha1 : bytes -> bytes -> bytes;
  hmac_sha256 : bytes -> bytes -> bytes;
  sha256 : bytes -> bytes;
}.

Class CryptoLaws `{C : Crypto} : Prop := {
  (** A box opens exactly when it is the seal of the result. This holds of
      XSalsa20-Poly1305 outright: Open recomputes the tag that Seal computes and
      the stream cipher is an involution. It says nothing about forgery. *)
  sbox_exact : forall k n c m, sbox_open k n c = Some m <-> c = sbox_seal k n m;
  sbox_length : forall k n m, length (sbox_seal k n m) = (16 + length m)%nat;
  scrypt_length : forall p s N r q, length (scrypt_raw p s N r q) = 32%nat;
  box_pub_length : forall k, length (box_pub k) = 32%nat;
  box_shared_length : forall p k, length (box_shared p k) = 32%nat;
  (** Diffie-Hellman *)
  box_dh : forall a b, length a = 32%nat -> length b = 32%nat ->
             box_shared (box_pub a) b = box_shared (box_pub b) a;
  ed_pub_length : forall s, length (ed_pub s) = 32%nat;
  ed_sign_length : forall k m, length (ed_sign k m) = 64%nat;
  ed_correct : forall s m, length s = 32%nat -> ed_verify (ed_pub s) m (ed_sign (s ++ ed_pub s) m) = true;
  hmac_sha1_length : forall k m, length (hmac_sha1 k m) = 20%nat;
  hmac_sha256_length : forall k m, length (hmac_sha256 k m) = 32%nat;
  sha256_length : forall m, length (sha256 m) = 32%nat;
}.

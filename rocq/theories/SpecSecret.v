(** Specification vocabulary for common/secret, common/util and migrate-store,
    written without the model's functions. *)
From Verif Require Export Secret.
Local Open Scope Z_scope.

(** The source [g] delivers the bytes [p] without an error and is then [g']. *)
Definition delivers (g : rng) (p : bytes) (g' : rng) : Prop := g = map Some p ++ g'.
(** The source cannot deliver [n] bytes. *)
Definition starved (g : rng) (n : nat) : Prop :=
  forall p g', length p = n -> ~ delivers g p g'.

Section WithCrypto.
Context `{C : Crypto}.

(** Wire format of a secret-key ciphertext: 24-byte nonce, then the box. *)
Definition sealed_with (k nonce m c : bytes) : Prop :=
  length nonce = 24%nat /\ c = nonce ++ sbox_seal k nonce m.

(** Format of an encrypted file: 32-byte salt, then a ciphertext under the
    scrypt key with the given parameters. *)
Definition file_format (N r p : Z) (pass salt nonce m data : bytes) : Prop :=
  length salt = 32%nat /\ exists c, sealed_with (scrypt_raw pass salt N r p) nonce m c /\ data = salt ++ c.
Definition genuine_file (pass m data : bytes) : Prop :=
  exists salt nonce, file_format (2 ^ 20) 8 2 pass salt nonce m data.
Definition genuine_legacy_file (pass m data : bytes) : Prop :=
  exists salt nonce, file_format (2 ^ 15) 8 4 pass salt nonce m data.

(** The box of [m] under [k], [nonce] has no proper prefix that is itself a box:
    what unforgeability gives for the attacker "truncation". *)
Definition no_truncated_box (k nonce m : bytes) : Prop :=
  forall m', sbox_seal k nonce m' `prefix_of` sbox_seal k nonce m -> m' = m.

End WithCrypto.

(** Two file systems agree except possibly at [path]. *)
Definition only_changes (path : bytes) (f f' : fs) : Prop :=
  forall q, q <> path -> f' !! q = f !! q.

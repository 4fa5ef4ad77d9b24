(** Specification vocabulary for common/public. *)
From Verif Require Export Public SpecTlv SpecSecret.
Local Open Scope Z_scope.

(** [b] starts with a byte field [x] (as Decode reads it) and goes on with
    [rest]; an empty byte record reads as an empty field and is not passed. *)
Definition field (b x rest : bytes) : Prop :=
  (x <> [] /\ value_spec b [] TBytes (VBytes x) (Slice rest [])) \/
  (x = [] /\ empty_spec b /\ rest = b).
(** [b] starts with the given fields. *)
Fixpoint fields (b : bytes) (xs : list bytes) (rest : bytes) : Prop :=
  match xs with
  | [] => rest = b
  | x :: xs' => exists b', field b x b' /\ fields b' xs' rest
  end.

(** [x] truncated or padded with zeros to [n] bytes. *)
Definition fit (n : nat) (x : bytes) : bytes := take n (x ++ replicate n x00).

Section WithCrypto.
Context `{C : Crypto}.

(** A private key whose components belong together. *)
Definition keypair (d seed : bytes) : privkey :=
  PrivKey (Some d) (Some (seed ++ ed_pub seed)) (Some (PubKey (Some (box_pub d)) (Some (ed_pub seed)))).

(** Wire format of a public-key ciphertext for encryption key [e], made with the
    ephemeral private key [ep] and [nonce]. *)
Definition sealed_to (e ep nonce payload c : bytes) : Prop :=
  c = box_pub ep ++ nonce ++ sbox_seal (box_shared e ep) nonce payload.
(** What the owner of the decryption key [d] accepts. *)
Definition opens_to (d c payload : bytes) : Prop :=
  exists epub nonce, length epub = 32%nat /\ length nonce = 24%nat /\
    c = epub ++ nonce ++ sbox_seal (box_shared epub d) nonce payload.
End WithCrypto.

(** [payload] is one byte record holding [m]. *)
Definition is_record (m payload : bytes) : Prop := wire_record (VBytes m) payload.

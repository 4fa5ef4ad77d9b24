(** What the primitives' standards say of the code's outputs. *)
From Verif Require Export Curve SpecAuth.
Local Open Scope Z_scope.

(** NaCl's secretbox: the key stream's first 32 bytes key the tag, the rest hides the
    message. How much of the stream is made does not matter. *)
Definition boxed (k nonce m box : bytes) : Prop :=
  exists b s c, s = xsalsa_stream k nonce b /\ (32 + length m <= length s)%nat /\
    c = bytes_xor m (drop 32 s) /\ box = poly1305 (take 32 s) c ++ c.
(** The key of a file: scrypt with N = 2^20, r = 8, p = 2. *)
Definition file_key (pass salt : bytes) : bytes := scrypt_of pass salt (2 ^ 20) 8 2 32.

(** RFC 8032: [sig] is valid for [m] under the public key [v]. *)
Definition ed_valid `{K : Curve} (v m sig : bytes) : Prop :=
  exists A R S, pdec v = Some A /\ sig = R ++ S /\ length R = 32%nat /\ length S = 32%nat /\ unle S < ed_order /\
    R = penc (padd (pmul (- (unle (sha_512 (R ++ v ++ m)) mod ed_order)) A) (pmul (unle S) pbase)).

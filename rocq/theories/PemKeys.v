(** Model of the PEM forms of locked private keys, common/public/crypto.go:80-117. *)
From Verif Require Export Public Pem.
Local Open Scope Z_scope.

Section WithCrypto.
Context `{C : Crypto}.

(** [PrivateType], common/public/crypto.go:22, and [util.VersionString],
    common/util/util.go:18-29. *)
Definition PrivateType : bytes := bs "CRYPTUTIL PRIVATE KEY".
Definition version_string : bytes := bs "1.1.0".
(** [ExportPrivate], common/public/crypto.go:82-96; [None] is ErrCorruptPrivateKey. *)
Definition export_private (k : option privkey) (pass : bytes) (g : rng) : outcome (option bytes * rng) :=
  let! r := lock_key k pass g in
  match r with
  | (None, g) => Ret (None, g)
  | (Some locked, g) => Ret (Some (pem_encode PrivateType [(bs "Version", version_string)] locked), g)
  end.
(** [ImportPrivate], common/public/crypto.go:100-116. *)
Definition import_private (enc pass : bytes) : outcome (option privkey) :=
  match pem_decode enc with
  | None => Ret None
  | Some (ty, b) => if decide (ty = PrivateType) then unlock_key b pass else Ret None
  end.
End WithCrypto.

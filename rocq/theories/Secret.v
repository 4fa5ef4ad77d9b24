(** Model of common/secret/crypto.go and of cmd/migrate-store (with its legacy
    package). No proofs here. *)
From Verif Require Export Util Crypto.
Local Open Scope Z_scope.

(** Sizes, common/secret/crypto.go:25-29. *)
Definition KeySize : nat := 32.
Definition SaltSize : nat := 32.
Definition nonceSize : nat := 24.

(** [scryptParams], common/secret/crypto.go:34-38. *)
Record scrypt_params := Params { sN : Z; sr : Z; sp : Z }.

(** [ScryptMode], common/secret/crypto.go:17-22, 32: any Go int. *)
Definition ScryptStandard : Z := 0.
Definition ScryptInteractive : Z := 1.

(** [scryptMode[m]], common/secret/crypto.go:41-49: a missing key yields the
    zero value. *)
Definition scrypt_mode (m : Z) : scrypt_params :=
  if decide (m = ScryptStandard) then Params 1048576 8 2
  else if decide (m = ScryptInteractive) then Params 16384 8 1
  else Params 0 0 0.

(** The parameter check of golang.org/x/crypto/scrypt.Key (64-bit int); true
    means that no error is returned. The Go test [r > maxInt/128/p] is reached
    only with N > 1, so p = 0 is outside the two modes used here. *)
Definition scrypt_params_ok (N r p : Z) : bool :=
  bool_decide (1 < N) && bool_decide (Z.land N (N - 1) = 0)
  && bool_decide (to_u 64 (to_u 64 r * to_u 64 p) < 2 ^ 30)
  && bool_decide (r <= (2 ^ 63 - 1) / 128 / p)
  && bool_decide (r <= (2 ^ 63 - 1) / 256)
  && bool_decide (N <= (2 ^ 63 - 1) / 128 / r).

Section WithCrypto.
Context `{C : Crypto}.

(** [scrypt.Key(pass, salt, N, r, p, 32)]: [None] is an error. *)
Definition scrypt_key (pass salt : bytes) (N r p : Z) : option bytes :=
  if scrypt_params_ok N r p then Some (scrypt_raw pass salt N r p) else None.

(** [GenerateKey], common/secret/crypto.go:54-64. *)
Definition generate_key (g : rng) : option bytes * rng :=
  match rand KeySize g with
  | (None, g') => (None, g')
  | (Some rb, g') =>
      if decide (length rb <> KeySize) then (None, g') else (Some (copy_into KeySize rb), g')
  end.

(** [DeriveKeyStrength], common/secret/crypto.go:68-79; [None] is nil. *)
Definition derive_key_strength (pass salt : bytes) (m : Z) : option bytes :=
  let s := scrypt_mode m in
  match scrypt_key pass salt (sN s) (sr s) (sp s) with
  | None => None
  | Some raw => Some (copy_into KeySize raw)
  end.

(** [DeriveKey], common/secret/crypto.go:83-85. *)
Definition derive_key (pass salt : bytes) : option bytes :=
  derive_key_strength pass salt ScryptStandard.

(** [Encrypt], common/secret/crypto.go:89-99. The key is a pointer; a nil key
    makes secretbox.Seal panic. [None] is the (nil, false) result. *)
Definition encrypt (key : option bytes) (msg : bytes) (g : rng) : outcome (option bytes * rng) :=
  match new_nonce g with
  | (None, g') => Ret (None, g')
  | (Some nonce, g') =>
      match key with
      | None => Panic
      | Some k => Ret (Some (copy_into nonceSize nonce ++ sbox_seal k nonce msg), g')
      end
  end.

(** [Decrypt], common/secret/crypto.go:103-110; secretbox.Open checks the
    length of the box before it looks at the key. *)
Definition decrypt (key : option bytes) (c : bytes) : outcome (option bytes) :=
  if decide (length c < nonceSize)%nat then Ret None else
  let nonce := copy_into nonceSize c in
  let box := drop nonceSize c in
  if decide (length box < 16)%nat then Ret None else
  match key with
  | None => Panic
  | Some k => Ret (sbox_open k nonce box)
  end.

(** Errors of the file functions: reading, decrypting
    (common/secret/crypto.go:116, 126), and for EncryptFile salt generation,
    encryption and writing (lines 135, 144, 149). *)
Inductive serr := ERead | EDecrypt | ESalt | EEncrypt | EWrite.

(** [DecryptFile], common/secret/crypto.go:114-129. [data[:SaltSize]] is bounded
    by the capacity of the slice (at least 512 for ioutil.ReadFile), but
    [data[SaltSize:]] panics when the file has fewer than 32 bytes. *)
Definition decrypt_file (f : fs) (name pass : bytes) : outcome (serr + bytes) :=
  match read_file f name with
  | None => Ret (inl ERead)
  | Some data =>
      if decide (length data < SaltSize)%nat then Panic else
      let salt := take SaltSize data in
      let data := drop SaltSize data in
      let! r := decrypt (derive_key pass salt) data in
      match r with
      | Some m => Ret (inr m)
      | None => Ret (inl EDecrypt)
      end
  end.

(** What EncryptFile leaves behind: error, files, the caller's buffer, source. *)
Record efile := EFile { ef_err : option serr; ef_fs : fs; ef_buf : bytes; ef_rng : rng }.

(** [EncryptFile], common/secret/crypto.go:132-151. The deferred Zero runs on
    every return after the salt. *)
Definition encrypt_file (w : wfate) (f : fs) (name pass encoded : bytes) (g : rng) : outcome efile :=
  match rand SaltSize g with
  | (None, g1) => Ret (EFile (Some ESalt) f encoded g1)
  | (Some salt, g1) =>
      let! r := encrypt (derive_key pass salt) encoded g1 in
      match r with
      | (None, g2) => Ret (EFile (Some EEncrypt) f (zero encoded) g2)
      | (Some data, g2) =>
          let '(ok, f') := write_file w f name (salt ++ data) in
          Ret (EFile (if ok then None else Some EWrite) f' (zero encoded) g2)
      end
  end.

(** *** cmd/migrate-store *)

(** [legacy.DeriveKey], cmd/migrate-store/legacy/crypto.go:42-60. *)
Definition legacy_derive_key (pass salt : bytes) : option bytes :=
  match scrypt_key pass salt 32768 8 4 with
  | None => None
  | Some raw => Some (copy_into KeySize raw)
  end.

(** [legacy.Decrypt], cmd/migrate-store/legacy/crypto.go:78-85. *)
Definition legacy_decrypt (key : option bytes) (c : bytes) : outcome (option bytes) :=
  if decide (length c < nonceSize)%nat then Ret None else
  let nonce := copy_into nonceSize c in
  let box := drop nonceSize c in
  if decide (length box < 16)%nat then Ret None else
  match key with
  | None => Panic
  | Some k => Ret (sbox_open k nonce box)
  end.

(** [legacy.DecryptFile], cmd/migrate-store/legacy/crypto.go:89-104. *)
Definition legacy_decrypt_file (f : fs) (name pass : bytes) : outcome (serr + bytes) :=
  match read_file f name with
  | None => Ret (inl ERead)
  | Some data =>
      if decide (length data < SaltSize)%nat then Panic else
      let salt := take SaltSize data in
      let data := drop SaltSize data in
      let! r := legacy_decrypt (legacy_derive_key pass salt) data in
      match r with
      | Some m => Ret (inr m)
      | None => Ret (inl EDecrypt)
      end
  end.

(** [legacy.Encrypt] and [legacy.EncryptFile], cmd/migrate-store/legacy/crypto.go:64-74, 107-126
    (not called by the command; they wrote the files it reads). *)
Definition legacy_encrypt (key : option bytes) (msg : bytes) (g : rng) : outcome (option bytes * rng) :=
  match new_nonce g with
  | (None, g') => Ret (None, g')
  | (Some nonce, g') =>
      match key with
      | None => Panic
      | Some k => Ret (Some (copy_into nonceSize nonce ++ sbox_seal k nonce msg), g')
      end
  end.
Definition legacy_encrypt_file (w : wfate) (f : fs) (name pass encoded : bytes) (g : rng) : outcome efile :=
  match rand SaltSize g with
  | (None, g1) => Ret (EFile (Some ESalt) f encoded g1)
  | (Some salt, g1) =>
      let! r := legacy_encrypt (legacy_derive_key pass salt) encoded g1 in
      match r with
      | (None, g2) => Ret (EFile (Some EEncrypt) f (zero encoded) g2)
      | (Some data, g2) =>
          let '(ok, f') := write_file w f name (salt ++ data) in
          Ret (EFile (if ok then None else Some EWrite) f' (zero encoded) g2)
      end
  end.

(** How a run of the process ends. *)
Inductive status := Running | Exit1 | Crashed.

(** [migrateStore], cmd/migrate-store/migrate-store.go:16-37. [pass] is what the
    prompt returns ([None]: error). *)
Definition migrate_store (w : wfate) (path : bytes) (pass : option bytes) (f : fs) (g : rng)
  : status * fs * rng :=
  match pass with
  | None => (Exit1, f, g)
  | Some p =>
      match legacy_decrypt_file f path p with
      | Panic => (Crashed, f, g)
      | Ret (inl _) => (Exit1, f, g)
      | Ret (inr blob) =>
          match encrypt_file w f path p blob g with
          | Panic => (Crashed, f, g)
          | Ret r => match ef_err r with
                     | Some _ => (Exit1, ef_fs r, ef_rng r)
                     | None => (Running, ef_fs r, ef_rng r)
                     end
          end
      end
  end.

(** [main], cmd/migrate-store/migrate-store.go:39-49: the command's arguments
    with what is typed and what the disk does for each. *)
Fixpoint migrate_main (args : list (bytes * option bytes * wfate)) (f : fs) (g : rng)
  : status * fs * rng :=
  match args with
  | [] => (Running, f, g)
  | (path, pass, w) :: args' =>
      match migrate_store w path pass f g with
      | (Running, f', g') => migrate_main args' f' g'
      | r => r
      end
  end.

End WithCrypto.

(** Model of common/auth: authenticator.go, password.go, session.go, totp.go,
    yubikey.go. No proofs here. What totp.go:62-108 and 167-198 export is in
    TotpUrl.v. *)
From Verif Require Export Public Text.
Local Open Scope Z_scope.

(** What the third-party packages bcrypt and yubikey compute. *)
(** A YubiKey token as github.com/conformal/yubikey decodes it: the two fields
    the code reads, at their Go types (uint16 counter, uint8 use). *)
Record token := Token { tk_ctr_lo : byte; tk_ctr_hi : byte; tk_use : byte }.

Class AuthLib := {
  (** the bcrypt string made from cost, 16-byte salt and the 72-byte key schedule *)
  bcrypt_hash : Z -> bytes -> bytes -> bytes;
  (** bcrypt.CompareHashAndPassword(hash, password) = nil *)
  bcrypt_cmp : bytes -> bytes -> bool;
  (** yubikey.ParseOTPString: public identity and one-time password *)
  yk_parse : bytes -> option (bytes * bytes);
  (** OTP.Parse(key): AES decryption and checksum *)
  yk_token : bytes -> bytes -> option token;
}.

(** The key material bcrypt uses: the password and a zero byte, repeated
    cyclically up to 72 bytes (golang.org/x/crypto/bcrypt, expensiveBlowfishSetup
    and blowfish.ExpandKey). *)
Definition bkey (pw : bytes) : bytes :=
  map (fun i => nth (i mod S (length pw)) (pw ++ [x00]) x00) (seq 0 72).

Class AuthLibLaws `{A : AuthLib} : Prop := {
  (** comparison recomputes the hash with the stored cost and salt *)
  bcrypt_exact : forall cost salt pw q, 4 <= cost <= 31 -> length salt = 16%nat ->
    bcrypt_cmp (bcrypt_hash cost salt (bkey pw)) q =
    bool_decide (bcrypt_hash cost salt (bkey q) = bcrypt_hash cost salt (bkey pw));
}.

(** [Authenticator], common/auth/authenticator.go:16-21. *)
Record auth := Auth { aType : bytes; aLabel : bytes; aLast : bytes; aSecret : bytes }.

(** The type names: totp.go:24, session.go:54, yubikey.go:23, password.go:8. *)
Definition TypeTOTP := bs "TOTP".
Definition TypeSession := bs "session".
Definition TypeYubiKey := bs "yubikey".
Definition TypePassword := bs "password".

(** Errors: authenticator.go:12, 33, 37; hex errors (session.go:100, 109); PRNG
    failure (session.go:126); bad TOTP configuration (totp.go:122). *)
Inductive aerr := EInvalidAuthenticator | EValidationFail | EBadHex | EPRNG | EBadConfig.
Global Instance aerr_eq_dec : EqDecision aerr.
Proof. solve_decision. Defined.

(** What a validator leaves: the authenticator behind the pointer, the boolean,
    the error, and the random source. *)
Record vres := VRes { v_auth : option auth; v_update : bool; v_err : option aerr; v_rng : rng }.

(** [Authenticator.Zero], common/auth/authenticator.go:24-26. *)
Definition auth_zero (a : auth) : auth := Auth (aType a) (aLabel a) (aLast a) (zero (aSecret a)).

(** The integer variable after a Decode when it held 0 before. *)
Definition stored_int (v : option value) : Z :=
  match v with Some (VInt _ z) => z | _ => 0 end.

(** *** totp.go *)
(** [TOTPConfig], common/auth/totp.go:31-58; crypto.Hash is a uint. *)
Record totp := Totp { tKey : bytes; tStart : Z; tStep : Z; tSize : Z; tAlgo : Z; tProvider : bytes }.
(** [crypto.SHA1]. *)
Definition SHA1 : Z := 3.

(** [TOTPConfig.Bytes], common/auth/totp.go:111-120. *)
Definition totp_bytes (c : totp) : bytes :=
  let enc := encode_ [] (VBytes (tKey c)) in
  let enc := encode_ enc (VInt U64 (tStart c)) in
  let enc := encode_ enc (VInt U64 (tStep c)) in
  let enc := encode_ enc (VInt I32 (to_i 32 (tSize c))) in
  let enc := encode_ enc (VInt I8 (to_i 8 (tAlgo c))) in
  encode_ enc (VBytes (tProvider c)).

(** [ParseTOTPConfig], common/auth/totp.go:125-165. *)
Definition parse_totp (b : bytes) : outcome (option totp) :=
  let dec := new_decoder (Slice b []) in
  let! r := tlv_decode dec TBytes in
  match r with DErr _ => Ret None | DOk key dec =>
  let! r := tlv_decode dec (TInt U64) in
  match r with DErr _ => Ret None | DOk start dec =>
  let! r := tlv_decode dec (TInt U64) in
  match r with DErr _ => Ret None | DOk step dec =>
  let! r := tlv_decode dec (TInt I32) in
  match r with DErr _ => Ret None | DOk size dec =>
  let! r := tlv_decode dec (TInt I8) in
  match r with DErr _ => Ret None | DOk algo dec =>
  let! r := tlv_decode dec TBytes in
  match r with DErr _ => Ret None | DOk provider dec =>
  Ret (Some (Totp (stored key) (stored_int start) (stored_int step) (stored_int size)
              (to_u 64 (stored_int algo)) (stored provider)))
  end end end end end end.

(** [oathDigits], common/auth/totp.go:200-212. *)
Definition oath_digits : list Z :=
  [1; 10; 100; 1000; 10000; 100000; 1000000; 10000000; 100000000; 1000000000; 10000000000].

(** [truncate], common/auth/totp.go:246-255, on a 20-byte sum. *)
Definition truncate (s : bytes) : Z :=
  let offset := Z.to_nat (Z.land (bz (default x00 (last s))) 15) in
  let p := take 4 (drop offset s) in
  let p0 := bz (nth 0 p x00) in let p1 := bz (nth 1 p x00) in
  let p2 := bz (nth 2 p x00) in let p3 := bz (nth 3 p x00) in
  let c := to_i 32 (Z.shiftl (Z.land p0 127) 24) in
  let c := to_i 32 (c + to_i 32 (Z.shiftl (Z.land p1 255) 16)) in
  let c := to_i 32 (c + to_i 32 (Z.shiftl (Z.land p2 255) 8)) in
  let c := to_i 32 (c + Z.land p3 255) in
  Z.land c 2147483647.

Section WithCrypto.
Context `{C : Crypto}.

(** [generateOTPAt], common/auth/totp.go:219-241: division by a zero step and
    indexing outside the table panic; [None] is ErrUnsupportedHash. *)
Definition otp_at (c : totp) (counter : Z) : outcome (option bytes) :=
  let counter := to_u 64 (counter - tStart c) in
  if decide (tStep c = 0) then Panic else
  let counter := counter / tStep c in
  let ctr := be 8 counter in
  if decide (0 <= tSize c < zlen oath_digits) then
    let m := nth (Z.to_nat (tSize c)) oath_digits 0 in
    if decide (tAlgo c = SHA1) then
      let dt := truncate (hmac_sha1 (tKey c) ctr) mod m in
      Ret (Some (pad0 (Z.to_nat (tSize c)) (show dt)))
    else Ret None
  else Panic.

(** [ImportGoogleTOTP], common/auth/totp.go:276-300, at time [now] with the
    global TOTPProvider. The error result is always nil. *)
Definition google_totp (provider key : bytes) : totp := Totp key 0 30 6 SHA1 provider.
Definition import_google (provider key : bytes) (now : Z) : outcome auth :=
  let c := google_totp provider key in
  let! initial := otp_at c now in
  Ret (Auth TypeTOTP [] (default [] initial) (totp_bytes c)).

(** [NewGoogleTOTP], common/auth/totp.go:259-272, up to the exported user data. *)
Definition new_google (provider : bytes) (now : Z) (g : rng) : outcome (option auth * rng) :=
  match rand 20 g with
  | (None, g') => Ret (None, g')
  | (Some key, g') => let! a := import_google provider key now in Ret (Some a, g')
  end.

(** [ValidateTOTP], common/auth/totp.go:306-344; [now] is uint64(time.Now().Unix()). *)
Definition validate_totp (now : Z) (a : option auth) (otp : bytes) (g : rng) : outcome vres :=
  match a with
  | None => Ret (VRes a false (Some EInvalidAuthenticator) g)
  | Some au =>
      if decide (aType au <> TypeTOTP) then Ret (VRes a false (Some EInvalidAuthenticator) g) else
      if decide (aLast au = otp) then Ret (VRes a false (Some EValidationFail) g) else
      let! c := parse_totp (aSecret au) in
      match c with
      | None => Ret (VRes a false (Some EBadConfig) g)
      | Some c =>
          let step (st : auth * bool) (t : Z) : outcome (auth * bool) :=
            let! s := otp_at c t in
            match s with
            | None => Ret st
            | Some s => if decide (s = otp) then Ret (Auth (aType (fst st)) (aLabel (fst st)) otp (aSecret (fst st)), true)
                        else Ret st
            end in
          let! st := step (au, false) now in
          let! st := step st (to_u 64 (now - tStep c)) in
          if snd st then Ret (VRes (Some (fst st)) true None g)
          else Ret (VRes (Some (fst st)) false (Some EValidationFail) g)
      end
  end.

(** *** session.go *)
Definition sessionLength : nat := 32.

(** [KeySession], common/auth/session.go:24-38: the shared key ([None]: false).
    The deferred wipe of the parsed private key affects only that local copy. *)
Definition key_session (priv pub : bytes) : outcome (option bytes) :=
  let! k := unmarshal_private priv in
  match k with
  | None => Ret None
  | Some k =>
      match unmarshal_public pub with
      | None => let! _ := priv_zero (Some k) in Ret None
      | Some p =>
          let! s := key_exchange (Some k) (Some p) in
          let! _ := priv_zero (Some k) in
          Ret (Some s)
      end
  end.

(** [Session.OTP], common/auth/session.go:41-45: the OTP and the caller's slice
    afterwards; [append] writes into its spare capacity when there is enough. *)
Definition session_otp (shared : bytes) (next : slice) : bytes * slice :=
  let mac := hmac_sha256 shared (vis next) in
  (hex_encode (vis next ++ mac),
   if decide (length mac <= length (hid next))%nat
   then Slice (vis next) (mac ++ drop (length mac) (hid next)) else next).

(** [Session.Zero], common/auth/session.go:49-51. *)
Definition session_zero (shared : bytes) : bytes := zero shared.

(** [NewSession], common/auth/session.go:63-89: authenticator and public key. *)
Definition new_session (pub : bytes) (g : rng) : outcome (option (auth * bytes) * rng) :=
  match rand sessionLength g with
  | (None, g1) => Ret (None, g1)
  | (Some next, g1) =>
      let! r := gen_key g1 in
      match r with
      | (None, g2) => Ret (None, g2)
      | (Some k, g2) =>
          if negb (priv_valid (Some k)) then Ret (None, g2) else
          let! epub := marshal_public (kPub k) in
          match unmarshal_public pub with
          | None => Ret (None, g2)
          | Some peer =>
              let! shared := key_exchange (Some k) (Some peer) in
              Ret (Some (Auth TypeSession [] (hex_encode next) shared, default [] epub), g2)
          end
      end
  end.

(** [ValidateSession], common/auth/session.go:93-131. *)
Definition validate_session (a : option auth) (otp : bytes) (g : rng) : outcome vres :=
  match a with
  | None => Ret (VRes a false (Some EInvalidAuthenticator) g)
  | Some au =>
      if decide (aType au <> TypeSession) then Ret (VRes a false (Some EInvalidAuthenticator) g) else
      match hex_decode otp with
      | None => Ret (VRes a false (Some EBadHex) g)
      | Some ob =>
          if decide (length ob <> 2 * sessionLength)%nat then Ret (VRes a false (Some EValidationFail) g) else
          match hex_decode (aLast au) with
          | None => Ret (VRes a false (Some EBadHex) g)
          | Some lb =>
              let expected := hmac_sha256 (aSecret au) lb in
              if decide (take sessionLength ob <> lb) then Ret (VRes a false (Some EValidationFail) g) else
              if decide (drop sessionLength ob <> expected) then Ret (VRes a false (Some EValidationFail) g) else
              match rand sessionLength g with
              | (None, g') => Ret (VRes a false (Some EPRNG) g')
              | (Some next, g') =>
                  Ret (VRes (Some (Auth (aType au) (aLabel au) (hex_encode next) (aSecret au))) true None g')
              end
          end
      end
  end.

(** *** yubikey.go *)
Context `{A : AuthLib}.

(** [Token.Counter()]: the low 15 bits. *)
Definition token_ctr (t : token) : Z := Z.land (bz (tk_ctr_lo t) + 256 * bz (tk_ctr_hi t)) 32767.
(** [getTokenCounter], common/auth/yubikey.go:14-20. Use is a uint8, so the
    shift at line 16 is done in 8 bits. *)
Definition token_counter (t : token) : Z :=
  let counter := to_u 32 (to_u 8 (Z.shiftl (bz (tk_use t)) 16)) in
  to_u 32 (counter + to_u 32 (token_ctr t)).

(** [YubiKeyConfig], common/auth/yubikey.go:26-30. *)
Record ykconfig := YK { yKey : bytes; yCounter : Z; yPublic : bytes }.

(** [YubiKeyConfig.Bytes], common/auth/yubikey.go:33-39. *)
Definition yk_bytes (c : ykconfig) : bytes :=
  let enc := encode_ [] (VBytes (yKey c)) in
  let enc := encode_ enc (VInt U32 (yCounter c)) in
  encode_ enc (VBytes (yPublic c)).

(** [ParseYubiKeyConfig], common/auth/yubikey.go:45-66. *)
Definition parse_yk (b : bytes) : outcome (option ykconfig) :=
  let dec := new_decoder (Slice b []) in
  let! r := tlv_decode dec TBytes in
  match r with DErr _ => Ret None | DOk key dec =>
  if decide (length (stored key) <> 16%nat) then Ret None else
  let! r := tlv_decode dec (TInt U32) in
  match r with DErr _ => Ret None | DOk ctr dec =>
  let! r := tlv_decode dec TBytes in
  match r with DErr _ => Ret None | DOk pub dec =>
  Ret (Some (YK (stored key) (stored_int ctr) (stored pub)))
  end end end.

(** [NewYubiKey], common/auth/yubikey.go:70-97: the authenticator ([None]: an
    error) and the caller's key afterwards. yubikey.NewKey copies into 16 bytes. *)
Definition new_yubikey (key otp : bytes) : option auth * bytes :=
  match yk_parse otp with
  | None => (None, key)
  | Some (pub, o) =>
      match yk_token (copy_into 16 key) o with
      | None => (None, key)
      | Some t => (Some (Auth TypeYubiKey [] otp (yk_bytes (YK key (token_counter t) pub))), zero key)
      end
  end.

(** [ValidateYubiKey], common/auth/yubikey.go:104-144. *)
Definition validate_yubikey (a : option auth) (otp : bytes) (g : rng) : outcome vres :=
  match a with
  | None => Ret (VRes a false (Some EInvalidAuthenticator) g)
  | Some au =>
      if decide (aType au <> TypeYubiKey) then Ret (VRes a false (Some EInvalidAuthenticator) g) else
      if decide (aLast au = otp) then Ret (VRes a false (Some EValidationFail) g) else
      let! c := parse_yk (aSecret au) in
      match c with
      | None => Ret (VRes a false (Some EInvalidAuthenticator) g)
      | Some c =>
          match yk_parse otp with
          | None => Ret (VRes a false (Some EValidationFail) g)
          | Some (pub, o) =>
              if decide (pub <> yPublic c) then Ret (VRes a false (Some EValidationFail) g) else
              match yk_token (copy_into 16 (yKey c)) o with
              | None => Ret (VRes a false (Some EValidationFail) g)
              | Some t =>
                  if decide (token_counter t < yCounter c) then Ret (VRes a false (Some EValidationFail) g) else
                  Ret (VRes (Some (Auth (aType au) (aLabel au) otp
                                    (yk_bytes (YK (yKey c) (token_counter t) (yPublic c))))) true None g)
              end
          end
      end
  end.

(** *** password.go *)
(** [NewPasswordAuth], common/auth/password.go:13-27, with
    bcrypt.GenerateFromPassword (72-byte limit, 16 bytes of salt). *)
Definition new_password (pw : bytes) (cost : Z) (g : rng) : option auth * rng :=
  let cost := if decide (cost = 0 \/ cost < 4 \/ cost > 31) then 14 else cost in
  if decide (72 < length pw)%nat then (None, g) else
  match rand 16 g with
  | (None, g') => (None, g')
  | (Some salt, g') => (Some (Auth TypePassword [] [] (bcrypt_hash cost salt (bkey pw))), g')
  end.

(** [ValidatePassword], common/auth/password.go:31-41. *)
Definition validate_password (a : option auth) (pw : bytes) (g : rng) : outcome vres :=
  match a with
  | None => Ret (VRes a false (Some EInvalidAuthenticator) g)
  | Some au =>
      if decide (aType au <> TypePassword) then Ret (VRes a false (Some EInvalidAuthenticator) g) else
      if bcrypt_cmp (aSecret au) pw then Ret (VRes a false None g)
      else Ret (VRes a false (Some EValidationFail) g)
  end.

(** *** authenticator.go *)
(** [Validators] and [Validate], common/auth/authenticator.go:42-64. *)
Definition validate (now : Z) (a : option auth) (pw : bytes) (g : rng) : outcome vres :=
  match a with
  | None => Ret (VRes a false (Some EInvalidAuthenticator) g)
  | Some au =>
      if decide (aType au = TypeYubiKey) then validate_yubikey a pw g
      else if decide (aType au = TypeTOTP) then validate_totp now a pw g
      else if decide (aType au = TypeSession) then validate_session a pw g
      else if decide (aType au = TypePassword) then validate_password a pw g
      else Ret (VRes a false (Some EInvalidAuthenticator) g)
  end.

End WithCrypto.

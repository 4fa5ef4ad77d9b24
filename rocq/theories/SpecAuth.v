(** Specification vocabulary for common/auth. *)
From Verif Require Export Auth SpecPublic SpecText.
Local Open Scope Z_scope.

Section WithCrypto.
Context `{C : Crypto}.

(** RFC 4226: dynamic truncation of the HMAC-SHA-1 of the 8-byte counter. *)
Definition hotp_value (key : bytes) (T : Z) (n : Z) : Prop :=
  exists hs lst pre p post, hs = hmac_sha1 key (be 8 T) /\ last hs = Some lst /\
    hs = pre ++ p ++ post /\ length pre = Z.to_nat (bz lst mod 16) /\ length p = 4%nat /\
    n = unbe p mod 2 ^ 31.
(** [s] is the [d]-digit one-time password for counter [T]. *)
Definition hotp (key : bytes) (T : Z) (d : nat) (s : bytes) : Prop :=
  length s = d /\ Forall is_digit s /\ exists n, hotp_value key T n /\ dval s = n mod 10 ^ Z.of_nat d.

(** RFC 6238 counter with 64-bit wrap-around. *)
Definition totp_counter (c : totp) (now : Z) : Z := ((now - tStart c) mod 2 ^ 64) / tStep c.
Definition totp_code (c : totp) (now : Z) (s : bytes) : Prop :=
  hotp (tKey c) (totp_counter c now) (Z.to_nat (tSize c)) s.
End WithCrypto.

(** A configuration as Go types it. *)
Definition typed_totp (c : totp) : Prop :=
  0 <= tStart c < 2 ^ 64 /\ 0 <= tStep c < 2 ^ 64 /\ - 2 ^ 63 <= tSize c < 2 ^ 63 /\ 0 <= tAlgo c < 2 ^ 64
  /\ zlen (tKey c) + zlen (tProvider c) < 2 ^ 30.
(** A usable one. *)
Definition usable_totp (c : totp) : Prop :=
  typed_totp c /\ tKey c <> [] /\ tStep c <> 0 /\ 1 <= tSize c <= 10 /\ tAlgo c = 3.

(** Repeated validation of a list of attempts against one stored authenticator;
    the caller stores the authenticator back each time. Each attempt brings its
    own password, time and random source. [None]: some attempt panicked. *)
Record attempt := Attempt { at_pw : bytes; at_now : Z; at_rng : rng }.
Section Runs.
Context `{C : Crypto} `{A : AuthLib}.
Fixpoint run (a : auth) (l : list attempt) : option (auth * list bool) :=
  match l with
  | [] => Some (a, [])
  | t :: l' =>
      match validate (at_now t) (Some a) (at_pw t) (at_rng t) with
      | Panic => None
      | Ret r =>
          match v_auth r with
          | None => None
          | Some a' =>
              match run a' l' with
              | Some (a'', oks) => Some (a'', bool_decide (v_err r = None) :: oks)
              | None => None
              end
          end
      end
  end.
End Runs.

(** The attempts of a run that were accepted. *)
Fixpoint accepted (l : list attempt) (oks : list bool) : list attempt :=
  match l, oks with
  | t :: l', true :: oks' => t :: accepted l' oks'
  | _ :: l', false :: oks' => accepted l' oks'
  | _, _ => []
  end.

Section Session.
Context `{C : Crypto}.
(** The session response to challenge [ch]. *)
Definition response (secret ch : bytes) : bytes := ch ++ hmac_sha256 secret ch.
End Session.

Section Yubi.
Context `{A : AuthLib}.
(** [otp] is a one-time password of the key with the given secret and public
    identity, made in power-up session [ctr]. *)
Definition yk_otp (key pub otp : bytes) (ctr : Z) : Prop :=
  exists o t, yk_parse otp = Some (pub, o) /\ yk_token key o = Some t /\
    ctr = (bz (tk_ctr_lo t) + 256 * bz (tk_ctr_hi t)) mod 2 ^ 15.
End Yubi.
Definition typed_yk (c : ykconfig) : Prop :=
  length (yKey c) = 16%nat /\ 0 <= yCounter c < 2 ^ 32 /\ zlen (yPublic c) < 2 ^ 30.

(** C76: the properties over the real primitives. *)
From Verif Require Import RealClaims AuthFacts.
Local Open Scope Z_scope.

(** C76. *)
(** What C01 to C75 assume of the primitives holds of the real ones. *)
Theorem C76_laws :
  forall (K : Curve) (KL : CurveLaws), CryptoLaws (C := real).
Proof. exact @real_laws. Qed.
Print Assumptions C76_laws.

(** common/secret, for any curve. *)
Theorem C76_derive :
  forall (K : Curve) pass salt m,
    (m = 0 -> derive_key_strength (C := real) pass salt m = Some (scrypt_of pass salt (2 ^ 20) 8 2 32)) /\
    (m = 1 -> derive_key_strength (C := real) pass salt m = Some (scrypt_of pass salt (2 ^ 14) 8 1 32)) /\
    (m <> 0 -> m <> 1 -> derive_key_strength (C := real) pass salt m = None) /\
    derive_key (C := real) pass salt = Some (scrypt_of pass salt (2 ^ 20) 8 2 32).
Proof. exact @real_derive. Qed.
Print Assumptions C76_derive.

Theorem C76_encrypt :
  forall (K : Curve) k m g nonce g',
    length k = 32%nat -> length nonce = 24%nat -> delivers g nonce g' ->
    exists box, encrypt (C := real) (Some k) m g = Ret (Some (nonce ++ box), g') /\ boxed k nonce m box.
Proof. exact @real_encrypt. Qed.
Print Assumptions C76_encrypt.

Theorem C76_decrypt :
  forall (K : Curve) k c m,
    length k = 32%nat ->
    decrypt (C := real) (Some k) c = Ret (Some m) <-> exists nonce box, length nonce = 24%nat /\ c = nonce ++ box /\ boxed k nonce m box.
Proof. exact @real_decrypt. Qed.
Print Assumptions C76_decrypt.

Theorem C76_encrypt_file :
  forall (K : Curve) f name pass d g salt nonce g',
    length salt = 32%nat -> length nonce = 24%nat -> delivers g (salt ++ nonce) g' ->
    exists r box, encrypt_file (C := real) WOk f name pass d g = Ret r /\ ef_err r = None /\ ef_rng r = g' /\
      ef_fs r !! name = Some (salt ++ nonce ++ box) /\ boxed (file_key pass salt) nonce d box.
Proof. exact @real_encrypt_file. Qed.
Print Assumptions C76_encrypt_file.

Theorem C76_decrypt_file :
  forall (K : Curve) f name pass m,
    decrypt_file (C := real) f name pass = Ret (inr m) <->
    exists salt nonce box, f !! name = Some (salt ++ nonce ++ box) /\ length salt = 32%nat /\ length nonce = 24%nat /\ boxed (file_key pass salt) nonce m box.
Proof. exact @real_decrypt_file. Qed.
Print Assumptions C76_decrypt_file.

(** Two messages sealed from the same randomness: their difference is in the clear. *)
Theorem C76_nonce_reuse :
  forall (K : Curve) k m1 m2 g c1 c2 g1 g2,
    length k = 32%nat -> length m1 = length m2 ->
    encrypt (C := real) (Some k) m1 g = Ret (Some c1, g1) -> encrypt (C := real) (Some k) m2 g = Ret (Some c2, g2) ->
    take 24 c1 = take 24 c2 /\ bytes_xor (drop 40 c1) (drop 40 c2) = bytes_xor m1 m2.
Proof. exact @real_reuse. Qed.
Print Assumptions C76_nonce_reuse.

(** common/auth. *)
Theorem C76_totp :
  forall (K : Curve) c now,
    tStep c <> 0 -> 1 <= tSize c <= 10 -> tAlgo c = 3 -> exists s, otp_at (C := real) c now = Ret (Some s) /\
    length s = Z.to_nat (tSize c) /\ Forall is_digit s /\
    exists lst pre p post, hmac sha_1 (tKey c) (be 8 (totp_counter c now)) = pre ++ p ++ post /\ last (pre ++ p ++ post) = Some lst /\
      length pre = Z.to_nat (bz lst mod 16) /\ length p = 4%nat /\ dval s = (unbe p mod 2 ^ 31) mod 10 ^ tSize c.
Proof. exact @real_totp. Qed.
Print Assumptions C76_totp.

Theorem C76_session :
  forall (K : Curve) shared next,
    fst (session_otp (C := real) shared next) = hex_encode (vis next ++ hmac sha_256 shared (vis next)).
Proof. exact @real_session. Qed.
Print Assumptions C76_session.

(** common/public. *)
Theorem C76_pub_encrypt :
  forall (K : Curve) p m g c g',
    pub_encrypt (C := real) p m g = Ret (Some c, g') -> zlen m < 2 ^ 32 ->
    exists e v ep nonce payload box, p = Some (PubKey (Some e) (Some v)) /\ length ep = 32%nat /\ length nonce = 24%nat /\ delivers g (ep ++ nonce) g' /\
      is_record m payload /\ c = x25519 ep nine ++ nonce ++ box /\ boxed (hsalsa (x25519 ep e) (zeros 16)) nonce payload box.
Proof. exact @real_pub_encrypt. Qed.
Print Assumptions C76_pub_encrypt.

Theorem C76_pub_decrypt :
  forall (K : Curve) (KL : CurveLaws) k c m,
    pub_decrypt (C := real) (Some k) c = Ret (Some m) <->
    priv_valid (Some k) = true /\ (1 <= zlen m < 2 ^ 31) /\
    exists d epub nonce payload box, kD k = Some d /\ is_record m payload /\ length epub = 32%nat /\ length nonce = 24%nat /\
      c = epub ++ nonce ++ box /\ boxed (hsalsa (x25519 d epub) (zeros 16)) nonce payload box.
Proof. exact @real_pub_decrypt. Qed.
Print Assumptions C76_pub_decrypt.

Theorem C76_sign :
  forall (K : Curve) (KL : CurveLaws) d seed m,
    length seed = 32%nat -> exists sig, sign (C := real) (Some (keypair (C := real) d seed)) m = Ret (Some sig) /\
    length sig = 64%nat /\ ed_valid (ed_public seed) m sig.
Proof. exact @real_sign. Qed.
Print Assumptions C76_sign.

Theorem C76_verify :
  forall (K : Curve) p m sig,
    verify (C := real) p m sig = Ret true <-> exists e v, p = Some (PubKey (Some e) (Some v)) /\ length sig = 64%nat /\ ed_valid v m sig.
Proof. exact @real_verify. Qed.
Print Assumptions C76_verify.

(** A signature cannot be changed into another one with the same first half. *)
Theorem C76_one_scalar :
  forall (K : Curve) (KL : CurveLaws) p m R S1 S2,
    length R = 32%nat -> verify (C := real) p m (R ++ S1) = Ret true -> verify (C := real) p m (R ++ S2) = Ret true -> S1 = S2.
Proof. exact @real_one_scalar. Qed.
Print Assumptions C76_one_scalar.

Theorem C76_key_exchange :
  forall (K : Curve) (KL : CurveLaws) da sa db sb,
    length da = 32%nat -> length db = 32%nat ->
    key_exchange (C := real) (Some (keypair (C := real) da sa)) (kPub (keypair (C := real) db sb)) = Ret (hsalsa (x25519 da (x25519 db nine)) (zeros 16)) /\
    key_exchange (C := real) (Some (keypair (C := real) db sb)) (kPub (keypair (C := real) da sa)) = Ret (hsalsa (x25519 da (x25519 db nine)) (zeros 16)).
Proof. exact @real_exchange. Qed.
Print Assumptions C76_key_exchange.

(** The laws can be met. *)
Example C76_nonvacuous : CurveLaws (K := toy_curve).
Proof. exact toy_curve_laws. Qed.

(** *** The definitions give the standards' published values *)
Definition unhex (s : bytes) : bytes := match hex_decode s with Some b => b | None => [] end.
(** FIPS 180, "abc". *)
Theorem C76_sha :
  sha_1 (bs "abc") = unhex (bs "a9993e364706816aba3e25717850c26c9cd0d89d") /\
  sha_256 (bs "abc") = unhex (bs "ba7816bf8f01cfea414140de5dae2223b00361a396177a9cb410ff61f20015ad") /\
  sha_512 (bs "abc") = unhex (bs "ddaf35a193617abacc417349ae20413112e6fa4e89a97ea20a9eeee64b55d39a2192992a274fc1a836ba3c23a3feebbd454d4423643ce80e2a9ac94fa54ca49f").
Proof. vm_compute. auto. Qed.
Print Assumptions C76_sha.
(** RFC 4231, case 2. *)
Theorem C76_hmac : hmac sha_256 (bs "Jefe") (bs "what do ya want for nothing?") = unhex (bs "5bdcc146bf60754e6a042426089575c75a003f089d2739839dec58b964ec3843").
Proof. vm_compute. reflexivity. Qed.
Print Assumptions C76_hmac.
(** RFC 6238, appendix B, through the code's own function. *)
Definition C76_config := Totp (bs "12345678901234567890") 0 30 8 3 (bs "example").
Definition C76_code (now : Z) := otp_at (C := real (K := toy_curve)) C76_config now.
Theorem C76_rfc6238 :
  C76_code 59 = Ret (Some (bs "94287082")) /\ C76_code 1111111109 = Ret (Some (bs "07081804")) /\
  C76_code 1111111111 = Ret (Some (bs "14050471")) /\ C76_code 1234567890 = Ret (Some (bs "89005924")) /\
  C76_code 2000000000 = Ret (Some (bs "69279037")) /\ C76_code 20000000000 = Ret (Some (bs "65353130")).
Proof. vm_compute. auto 10. Qed.
Print Assumptions C76_rfc6238.
(** RFC 7914, section 12, the first vector. *)
Theorem C76_scrypt : scrypt_of [] [] 16 1 1 64 = unhex (bs "77d6576238657b203b19ca42c18a0497f16b4844e3074ae8dfdffa3fede21442fcd0069ded0948f8326a753a0fc81f17e8d3e0fb2e0d3628cf35e20c38d18906").
Proof. vm_compute. reflexivity. Qed.
Print Assumptions C76_scrypt.
(** NaCl's own test of secretbox. *)
Theorem C76_secretbox :
  secretbox_seal (unhex (bs "1b27556473e985d462cd51197a9a46c76009549eac6474f206c4ee0844f68389")) (unhex (bs "69696ee955b62b73cd62bda875fc73d68219e0036b7a0b37"))
    (unhex (bs "be075fc53c81f2d5cf141316ebeb0c7b5228c52a4c62cbd44b66849b64244ffce5ecbaaf33bd751a1ac728d45e6c61296cdc3c01233561f41db66cce314adb310e3be8250c46f06dceea3a7fa1348057e2f6556ad6b1318a024a838f21af1fde048977eb48f59ffd4924ca1c60902e52f0a089bc76897040e082f937763848645e0705")) =
  unhex (bs "f3ffc7703f9400e52a7dfb4b3d3305d98e993b9f48681273c29650ba32fc76ce48332ea7164d96a4476fb8c531a1186ac0dfc17c98dce87b4da7f011ec48c97271d2c20f9b928fe2270d6fb863d51738b48eeee314a7cc8ab932164548e526ae90224368517acfeabd6bb3732bc0e9da99832b61ca01b6de56244a9e88d5f9b37973f622a43d14a6599b1f654cb45a74e355a5").
Proof. vm_compute. reflexivity. Qed.
Print Assumptions C76_secretbox.

(** *** The repository's YubiKey tests (common/auth/yubikey_test.go), with bcrypt left out *)
Definition C76_yubico : AuthLib := yubico (fun _ _ _ => []) (fun _ _ => false).
Definition C76_key := unhex (bs "971ab1c6b0400448c685e650f895195a").
Definition C76_initial := bs "brknecvrdjcrbvldbdffbvjuigjhjhugfcvudrndjufl".
Definition C76_otps := map bs [
  "brknecvrdjcrkgekkikibruncdieijlhcchhjhrftvlh"; "brknecvrdjcrbcvhgkrclenutgtctllfnhulileuhljg";
  "brknecvrdjcridlnbrvlnkjnrnvnrtnrrnkunlkjhfdb"; "brknecvrdjcrtugntfdigvuteevtfgubhbggbfbkvvcd";
  "brknecvrdjcrinunglgrrricebletiitvccvuhljiiud"; "brknecvrdjcrvgehdtrcctgrejeechjhdcbbvujedfec";
  "brknecvrdjcrngkcilrgnivcvrtjugvurfbuikjldgnb"; "brknecvrdjcrcrdlkuincktkklhftrcrhjfvhjhifhcj";
  "brknecvrdjcrrbbvtdfrgkrhjgvvlldehidfhidvitlb"]%string.
Definition C76_start : auth := match new_yubikey (A := C76_yubico) C76_key C76_initial with (Some a, _) => a | _ => Auth [] [] [] [] end.
Fixpoint C76_run (a : auth) (l : list bytes) : list bool :=
  match l with
  | [] => []
  | o :: l => match validate_yubikey (A := C76_yubico) (Some a) o [] with
              | Ret (VRes (Some a') ok _ _) => ok :: C76_run a' l
              | _ => [] end
  end.
(** TestNewYubiKey, TestInvalidAuth, TestValidYKOTP and TestYKNoCounterStepback: with the
    key a token is made, with part of it or of the password none; the first password is
    refused again, the next nine are accepted, and after them all ten refused. *)
Theorem C76_yubikey :
  aType C76_start = bs "yubikey" /\
  fst (new_yubikey (A := C76_yubico) (drop 1 C76_key) C76_initial) = None /\
  fst (new_yubikey (A := C76_yubico) C76_key (take 1 C76_initial)) = None /\
  C76_run C76_start (C76_initial :: C76_otps ++ C76_initial :: C76_otps) = false :: replicate 9 true ++ replicate 10 false.
Proof. vm_compute. auto. Qed.
Print Assumptions C76_yubikey.

(** Property theorems about common/public (C15-C26). Only statements, each
    closed by a lemma of PublicFacts.v. *)
From Verif Require Import PublicFacts Toy.
Local Open Scope Z_scope.

(** C15. *)
Theorem C15_public_accepts_exactly :
  forall b, (exists p, unmarshal_public b = Some p) <-> length b = 64%nat.
Proof. exact unmarshal_public_total. Qed.
Print Assumptions C15_public_accepts_exactly.

Theorem C15_public_value :
  forall b p, unmarshal_public b = Some p <->
    exists e v, length e = 32%nat /\ length v = 32%nat /\ b = e ++ v /\ p = PubKey (Some e) (Some v).
Proof. exact unmarshal_public_exact. Qed.
Print Assumptions C15_public_value.

Theorem C15_public_roundtrip :
  forall p, pub_valid (Some p) = true -> wf_pub p ->
    exists b, marshal_public (Some p) = Ret (Some b) /\ length b = 64%nat /\ unmarshal_public b = Some p.
Proof. exact marshal_public_roundtrip. Qed.
Print Assumptions C15_public_roundtrip.

Theorem C15_public_inverse :
  forall b p, unmarshal_public b = Some p -> marshal_public (Some p) = Ret (Some b).
Proof. exact unmarshal_then_marshal. Qed.
Print Assumptions C15_public_inverse.

Theorem C15_private_roundtrip :
  forall k, priv_valid (Some k) = true -> wf_priv k ->
    exists b, marshal_private (Some k) = Ret (Some b) /\ length b = 180%nat /\
      forall rest, zlen rest < 2 ^ 30 -> unmarshal_private (b ++ rest) = Ret (Some k).
Proof. exact marshal_private_roundtrip. Qed.
Print Assumptions C15_private_roundtrip.

Theorem C15_invalid_rejected :
  (forall k, priv_valid k = false <-> marshal_private k = Ret None) /\
  (forall p, pub_valid p = false <-> marshal_public p = Ret None).
Proof. exact (conj marshal_private_invalid marshal_public_invalid). Qed.
Print Assumptions C15_invalid_rejected.

(** What "valid" means: no nil pointer anywhere. *)
Theorem C15_valid_means :
  (forall p, pub_valid p = true <-> exists e v, p = Some (PubKey (Some e) (Some v))) /\
  (forall k, priv_valid k = true <->
     exists d s e v, k = Some (PrivKey (Some d) (Some s) (Some (PubKey (Some e) (Some v))))).
Proof. exact (conj pub_valid_iff priv_valid_iff). Qed.
Print Assumptions C15_valid_means.

Example C15_nonvacuous :
  priv_valid (Some (keypair (zeros 32) (replicate 32 xff))) = true /\ wf_priv (keypair (zeros 32) (replicate 32 xff)).
Proof. split; [reflexivity|]. repeat split. Qed.

(** C16. *)
Theorem C16_accepts_exactly :
  forall b k, unmarshal_private b = Ret (Some k) <->
    exists d s e v rest, fields b [d; s; e; v] rest /\
      k = PrivKey (Some (fit 32 d)) (Some (fit 64 s)) (Some (PubKey (Some (fit 32 e)) (Some (fit 32 v)))).
Proof. exact unmarshal_private_exact. Qed.
Print Assumptions C16_accepts_exactly.

Theorem C16_panics_exactly :
  forall b, unmarshal_private b = Panic <->
    exists xs b', (length xs < 4)%nat /\ fields b xs b' /\ panic_spec b' [] TBytes.
Proof. exact unmarshal_private_panics. Qed.
Print Assumptions C16_panics_exactly.

(** A non-empty field is a record; nothing else parses as one. *)
Theorem C16_field_is_record :
  forall b x rest, field b x rest -> x <> [] ->
    b = [x03] ++ be 4 (zlen x mod 2 ^ 32) ++ x ++ rest /\
    exists n, seen_length (x ++ rest) n /\ zlen x <= n.
Proof.
  exact field_inv_bytes.
Qed.
Print Assumptions C16_field_is_record.

Theorem C16_zero_key_refuted :
  unmarshal_private [x03; x00; x00; x00; x00] =
  Ret (Some (PrivKey (Some (zeros 32)) (Some (zeros 64)) (Some (PubKey (Some (zeros 32)) (Some (zeros 32)))))).
Proof. exact unmarshal_zero_key. Qed.
Print Assumptions C16_zero_key_refuted.

(** Wiping: Zero clears both secret parts and drops them; a second Zero panics. *)
Theorem C16_zero :
  forall k r, priv_zero (Some k) = Ret r ->
    exists d s, kD k = Some d /\ kS k = Some s /\
      r = (PrivKey None None (kPub k), zeros (length d), zeros (length s)) /\
      priv_zero (Some (fst (fst r))) = Panic.
Proof. exact priv_zero_twice. Qed.
Print Assumptions C16_zero.

(** C17. *)
Theorem C17_generate_key_never_succeeds :
  forall (C : Crypto) g,
    (starved g 64 -> exists g', gen_key g = Ret (None, g')) /\
    (~ starved g 64 -> gen_key g = Panic).
Proof. exact @gen_key_exact. Qed.
Print Assumptions C17_generate_key_never_succeeds.

Definition C17_source : rng := map Some (replicate 64 x07).
Example C17_nonvacuous : gen_key (C:=toy) C17_source = Panic /\ ~ starved C17_source 64.
Proof.
  split; [reflexivity|]. intros S. exact (S (replicate 64 x07) [] eq_refl eq_refl).
Qed.

(** C18. Every message length. *)
Theorem C18_roundtrip :
  forall (C : Crypto) (L : CryptoLaws) d seed m g ep nonce g',
    length d = 32%nat -> length ep = 32%nat -> length nonce = 24%nat -> delivers g (ep ++ nonce) g' ->
    exists c, pub_encrypt (kPub (keypair d seed)) m g = Ret (Some c, g') /\
      length c = (length m + 77)%nat /\
      pub_decrypt (Some (keypair d seed)) c =
        (if decide (1 <= zlen m < 2 ^ 31) then Ret (Some m)
         else if decide (2 ^ 31 <= zlen m mod 2 ^ 32) then Panic else Ret None).
Proof. exact @encrypt_decrypt. Qed.
Print Assumptions C18_roundtrip.

Definition C18_source : rng := map Some (replicate 32 x07 ++ bs "0123456789abcdefghijklmn").
Example C18_nonvacuous :
  delivers C18_source (replicate 32 x07 ++ bs "0123456789abcdefghijklmn") [] /\
  exists c, pub_encrypt (C:=toy) (kPub (keypair (replicate 32 x05) (replicate 32 x06))) (bs "hi") C18_source = Ret (Some c, [])
    /\ pub_decrypt (C:=toy) (Some (keypair (replicate 32 x05) (replicate 32 x06))) c = Ret (Some (bs "hi")).
Proof.
  split; [reflexivity|]. eexists. split; [vm_compute; reflexivity|]. vm_compute. reflexivity.
Qed.

(** C19. *)
Theorem C19_encrypt_failures :
  forall (C : Crypto) p payload g,
    (pub_valid p = false -> encrypt_raw p payload g = Ret (None, g)) /\
    (pub_valid p = true -> starved g 32 -> exists g', encrypt_raw p payload g = Ret (None, g')) /\
    (pub_valid p = true -> ~ starved g 32 -> starved g 56 -> encrypt_raw p payload g = Panic).
Proof. exact @encrypt_raw_failure. Qed.
Print Assumptions C19_encrypt_failures.

Theorem C19_output_complete :
  forall (C : Crypto) p payload g r g',
    encrypt_raw p payload g = Ret (r, g') ->
    r = None \/ exists e v ep nonce, p = Some (PubKey (Some e) (Some v)) /\ length ep = 32%nat /\ length nonce = 24%nat /\
       delivers g (ep ++ nonce) g' /\ exists c, r = Some c /\ sealed_to e ep nonce payload c.
Proof. exact @encrypt_raw_inv. Qed.
Print Assumptions C19_output_complete.

(** Encrypt and EncryptAndSign are that function on the message's records. *)
Theorem C19_encrypt_is :
  forall (C : Crypto) p m g, exists payload,
    pub_encrypt p m g = encrypt_raw p payload g /\ (zlen m < 2 ^ 32 -> is_record m payload).
Proof. exact (fun C p m g => ex_intro _ _ (conj (pub_encrypt_eq p m g) (is_record_rec m))). Qed.
Print Assumptions C19_encrypt_is.

Theorem C19_encrypt_and_sign_is :
  forall (C : Crypto) d s e v p m g,
    encrypt_and_sign (Some (PrivKey (Some d) (Some s) (Some (PubKey (Some e) (Some v))))) p m g =
    encrypt_raw p (rec_of (VBytes m) ++ rec_of (VBytes (ed_sign s m))) g.
Proof. exact @encrypt_and_sign_eq. Qed.
Print Assumptions C19_encrypt_and_sign_is.

Example C19_nonvacuous : ~ starved (map Some (replicate 40 x07)) 32 /\ starved (map Some (replicate 40 x07)) 56.
Proof.
  split.
  - intros S. exact (S (replicate 32 x07) (map Some (replicate 8 x07)) eq_refl eq_refl).
  - apply read_full_none. eexists. vm_compute. reflexivity.
Qed.

(** C20. *)
Theorem C20_accepts_exactly :
  forall (C : Crypto) (L : CryptoLaws) k c m,
    pub_decrypt (Some k) c = Ret (Some m) <->
    priv_valid (Some k) = true /\ (1 <= zlen m < 2 ^ 31) /\
    exists d payload, kD k = Some d /\ opens_to d c payload /\ is_record m payload.
Proof. exact @pub_decrypt_exact. Qed.
Print Assumptions C20_accepts_exactly.

Theorem C20_panics_exactly :
  forall (C : Crypto) (L : CryptoLaws) k c,
    pub_decrypt (Some k) c = Panic <->
    priv_valid (Some k) = true /\
    exists d payload, kD k = Some d /\ opens_to d c payload /\ panic_spec payload [] TBytes.
Proof. exact @pub_decrypt_panics. Qed.
Print Assumptions C20_panics_exactly.

(** C21. *)
Theorem C21_sign_then_verify :
  forall (C : Crypto) (L : CryptoLaws) d seed m,
    length seed = 32%nat ->
    exists s, sign (Some (keypair d seed)) m = Ret (Some s) /\ length s = 64%nat /\
      verify (kPub (keypair d seed)) m s = Ret true.
Proof. exact @sign_verify. Qed.
Print Assumptions C21_sign_then_verify.

Theorem C21_sign_exactly :
  forall (C : Crypto) k m,
    (priv_valid k = false -> sign k m = Ret None) /\
    (forall kk, k = Some kk -> priv_valid k = true -> exists s, kS kk = Some s /\ sign k m = Ret (Some (ed_sign s m))).
Proof. exact @sign_exact. Qed.
Print Assumptions C21_sign_exactly.

Theorem C21_verify_exactly :
  forall (C : Crypto) p m s,
    (exists b, verify p m s = Ret b) /\
    (verify p m s = Ret true <->
     exists e v, p = Some (PubKey (Some e) (Some v)) /\ length s = 64%nat /\ ed_verify v m s = true).
Proof. exact @verify_exact. Qed.
Print Assumptions C21_verify_exactly.

(** C22. Every message length. *)
Theorem C22_roundtrip :
  forall (C : Crypto) (L : CryptoLaws) da sa db sb m g ep nonce g',
    length sa = 32%nat -> length db = 32%nat ->
    length ep = 32%nat -> length nonce = 24%nat -> delivers g (ep ++ nonce) g' ->
    exists c, encrypt_and_sign (Some (keypair da sa)) (kPub (keypair db sb)) m g = Ret (Some c, g') /\
      length c = (length m + 146)%nat /\
      (1 <= zlen m < 2 ^ 31 - 69 ->
        decrypt_and_verify (Some (keypair db sb)) (kPub (keypair da sa)) c = Ret (Some m)) /\
      (~ (1 <= zlen m < 2 ^ 31 - 69) ->
        forall m', decrypt_and_verify (Some (keypair db sb)) (kPub (keypair da sa)) c <> Ret (Some m')).
Proof. exact @signcrypt_roundtrip. Qed.
Print Assumptions C22_roundtrip.

Theorem C22_accepts_exactly :
  forall (C : Crypto) (L : CryptoLaws) k p c m,
    decrypt_and_verify (Some k) (Some p) c = Ret (Some m) <->
    priv_valid (Some k) = true /\ (1 <= zlen m < 2 ^ 31 - 69) /\
    exists d e v payload s r1 r2, kD k = Some d /\ p = PubKey (Some e) (Some v) /\ opens_to d c payload /\
      payload = r1 ++ r2 /\ is_record m r1 /\ is_record s r2 /\ length s = 64%nat /\ ed_verify v m s = true.
Proof. exact @dav_exact. Qed.
Print Assumptions C22_accepts_exactly.

Theorem C22_invalid_signer_refused :
  forall (C : Crypto) k p m g, priv_valid k = false -> encrypt_and_sign k p m g = Ret (None, g).
Proof. exact @signcrypt_invalid_signer. Qed.
Print Assumptions C22_invalid_signer_refused.

(** C23. *)
Theorem C23_signed_not_plain :
  forall (C : Crypto) (L : CryptoLaws) da sa db sb m g c g',
    length db = 32%nat ->
    encrypt_and_sign (Some (keypair da sa)) (kPub (keypair db sb)) m g = Ret (Some c, g') ->
    forall m', pub_decrypt (Some (keypair db sb)) c <> Ret (Some m').
Proof. exact @not_confusable. Qed.
Print Assumptions C23_signed_not_plain.

Theorem C23_plain_not_signed :
  forall (C : Crypto) (L : CryptoLaws) db sb p m g c g',
    length db = 32%nat ->
    pub_encrypt (kPub (keypair db sb)) m g = Ret (Some c, g') ->
    forall m', decrypt_and_verify (Some (keypair db sb)) (Some p) c <> Ret (Some m').
Proof. exact @not_confusable_2. Qed.
Print Assumptions C23_plain_not_signed.

Example C23_nonvacuous :
  exists c, encrypt_and_sign (C:=toy) (Some (keypair (replicate 32 x05) (replicate 32 x06)))
    (kPub (keypair (replicate 32 x08) (replicate 32 x09))) (bs "hi") C18_source = Ret (Some c, []).
Proof. eexists. vm_compute. reflexivity. Qed.

(** C24. *)
Theorem C24_recipient_not_bound :
  forall (C : Crypto) (L : CryptoLaws) da sa db sb dc sc m g c g' ep nonce h h',
    length sa = 32%nat -> length db = 32%nat -> length dc = 32%nat -> 1 <= zlen m < 2 ^ 31 - 69 ->
    encrypt_and_sign (Some (keypair da sa)) (kPub (keypair db sb)) m g = Ret (Some c, g') ->
    length ep = 32%nat -> length nonce = 24%nat -> delivers h (ep ++ nonce) h' ->
    exists payload c', decrypt_raw (Some (keypair db sb)) c = Ret (Some payload) /\
      encrypt_raw (kPub (keypair dc sc)) payload h = Ret (Some c', h') /\
      decrypt_and_verify (Some (keypair dc sc)) (kPub (keypair da sa)) c' = Ret (Some m).
Proof. exact @forwarding. Qed.
Print Assumptions C24_recipient_not_bound.

(** C25. *)
Theorem C25_lock_unlock :
  forall (C : Crypto) (L : CryptoLaws) k pass g salt nonce g',
    priv_valid (Some k) = true -> wf_priv k ->
    length salt = 32%nat -> length nonce = 24%nat -> delivers g (salt ++ nonce) g' ->
    exists l, lock_key (Some k) pass g = Ret (Some l, g') /\ length l = 252%nat /\ unlock_key l pass = Ret (Some k).
Proof. exact @lock_unlock. Qed.
Print Assumptions C25_lock_unlock.

Theorem C25_lock_fails :
  forall (C : Crypto) (L : CryptoLaws) k pass g,
    (priv_valid k = false -> lock_key k pass g = Ret (None, g)) /\
    (priv_valid k = true -> starved g 56 -> exists g', lock_key k pass g = Ret (None, g')).
Proof. exact @lock_key_fails. Qed.
Print Assumptions C25_lock_fails.

Theorem C25_unlock_accepts_exactly :
  forall (C : Crypto) (L : CryptoLaws) locked pass k,
    unlock_key locked pass = Ret (Some k) <->
    exists out, genuine_file pass out locked /\ unmarshal_private out = Ret (Some k).
Proof. exact @unlock_key_exact. Qed.
Print Assumptions C25_unlock_accepts_exactly.

Theorem C25_unlock_rejects :
  forall (C : Crypto) (L : CryptoLaws) locked pass,
    (forall out, ~ genuine_file pass out locked) -> unlock_key locked pass = Ret None.
Proof. exact @unlock_key_rejects. Qed.
Print Assumptions C25_unlock_rejects.

Example C25_nonvacuous : forall out, ~ genuine_file (C:=toy) (bs "pw") out (zeros 80).
Proof.
  intros out G.
  assert (decrypt_file (C:=toy) {[ bs "f" := zeros 80 ]} (bs "f") (bs "pw") = Ret (inr out)) as E
    by (apply decrypt_file_exact; eexists; split; [reflexivity|exact G]).
  vm_compute in E. discriminate.
Qed.

(** C26. *)
Theorem C26_agreement :
  forall (C : Crypto) (L : CryptoLaws) da sa db sb,
    length da = 32%nat -> length db = 32%nat ->
    exists k, key_exchange (Some (keypair da sa)) (kPub (keypair db sb)) = Ret k /\
              key_exchange (Some (keypair db sb)) (kPub (keypair da sa)) = Ret k /\ length k = 32%nat.
Proof. exact @key_exchange_agree. Qed.
Print Assumptions C26_agreement.

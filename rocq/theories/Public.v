(** Model of common/public/crypto.go (the PEM forms are in PemKeys.v). No proofs
    here. A pointer to an array is [option bytes] ([None]: nil); the length of
    the array is a typing fact in Go, stated as [wf_pub]/[wf_priv] below. *)
From Verif Require Export Secret Tlv.
Local Open Scope Z_scope.

(** [PublicKey], common/public/crypto.go:169-172. *)
Record pubkey := PubKey { pE : option bytes; pV : option bytes }.
(** [PrivateKey], common/public/crypto.go:30-34; the embedded pointer may be nil. *)
Record privkey := PrivKey { kD : option bytes; kS : option bytes; kPub : option pubkey }.

(** Array types of the fields, common/public/crypto.go:31-32, 170-171. *)
Definition arr (n : nat) (o : option bytes) : Prop :=
  match o with Some b => length b = n | None => True end.
Definition wf_pub (p : pubkey) : Prop := arr 32 (pE p) /\ arr 32 (pV p).
Definition wf_priv (k : privkey) : Prop :=
  arr 32 (kD k) /\ arr 64 (kS k) /\ match kPub k with Some p => wf_pub p | None => True end.

(** [PublicKey.Valid], common/public/crypto.go:175-184 (the receiver may be nil). *)
Definition pub_valid (p : option pubkey) : bool :=
  match p with
  | None => false
  | Some p => match pE p with None => false | Some _ =>
              match pV p with None => false | Some _ => true end end
  end.

(** [PrivateKey.Valid], common/public/crypto.go:37-48. *)
Definition priv_valid (k : option privkey) : bool :=
  match k with
  | None => false
  | Some k => if negb (pub_valid (kPub k)) then false else
              match kD k with None => false | Some _ =>
              match kS k with None => false | Some _ => true end end
  end.

(** Slicing or indexing through a pointer: panics on nil. *)
Definition deref {A} (o : option A) : outcome A :=
  match o with Some a => Ret a | None => Panic end.

(** [PrivateKey.Zero], common/public/crypto.go:52-57: the key afterwards, and the
    two wiped arrays. *)
Definition priv_zero (k : option privkey) : outcome (privkey * bytes * bytes) :=
  let! k := deref k in
  let! d := deref (kD k) in
  let! s := deref (kS k) in
  Ret (PrivKey None None (kPub k), zero d, zero s).

(** [MarshalPrivate], common/public/crypto.go:67-78. *)
Definition marshal_private (k : option privkey) : outcome (option bytes) :=
  if negb (priv_valid k) then Ret None else
  let! k := deref k in
  let! d := deref (kD k) in
  let! s := deref (kS k) in
  let! p := deref (kPub k) in
  let! e := deref (pE p) in
  let! v := deref (pV p) in
  Ret (Some (encode_ (encode_ (encode_ (encode_ [] (VBytes d)) (VBytes s)) (VBytes e)) (VBytes v))).

(** The byte slice variable after [dec.Decode(&x)] when it held nil before. *)
Definition stored (v : option value) : bytes :=
  match v with Some (VBytes b) => b | _ => [] end.

(** [UnmarshalPrivate], common/public/crypto.go:121-166. *)
Definition unmarshal_private (b : bytes) : outcome (option privkey) :=
  let dec := new_decoder (Slice b []) in
  let! r := tlv_decode dec TBytes in
  match r with DErr _ => Ret None | DOk d dec =>
  let! r := tlv_decode dec TBytes in
  match r with DErr _ => Ret None | DOk s dec =>
  let! r := tlv_decode dec TBytes in
  match r with DErr _ => Ret None | DOk e dec =>
  let! r := tlv_decode dec TBytes in
  match r with DErr _ => Ret None | DOk v dec =>
  Ret (Some (PrivKey (Some (copy_into 32 (stored d))) (Some (copy_into 64 (stored s)))
               (Some (PubKey (Some (copy_into 32 (stored e))) (Some (copy_into 32 (stored v)))))))
  end end end end.

(** [MarshalPublic], common/public/crypto.go:187-196. *)
Definition marshal_public (p : option pubkey) : outcome (option bytes) :=
  if negb (pub_valid p) then Ret None else
  let! p := deref p in
  let! e := deref (pE p) in
  let! v := deref (pV p) in
  Ret (Some (e ++ v)).

(** [UnmarshalPublic], common/public/crypto.go:201-215; a bytes.Buffer Read
    fills the array from the front of what is left. *)
Definition unmarshal_public (b : bytes) : option pubkey :=
  if decide (length b <> 64%nat) then None else
  let e := copy_into 32 b in
  let b' := drop 32 b in
  let v := copy_into 32 b' in
  Some (PubKey (Some e) (Some v)).

Section WithCrypto.
Context `{C : Crypto}.

(** [box.GenerateKey(prng)]: (public, private) from 32 random bytes. *)
Definition box_generate_key (g : rng) : option (bytes * bytes) * rng :=
  match read_full 32 g with
  | (None, g') => (None, g')
  | (Some d, g') => (Some (box_pub d, d), g')
  end.

(** [ed25519.GenerateKey(prng)]: (public, private) from a 32-byte seed. *)
Definition ed_generate_key (g : rng) : option (bytes * bytes) * rng :=
  match read_full 32 g with
  | (None, g') => (None, g')
  | (Some s, g') => (Some (ed_pub s, s ++ ed_pub s), g')
  end.

(** [GenerateKey], common/public/crypto.go:219-238. [priv.V] and [priv.S] are
    still nil when they are sliced at lines 234-235. *)
Definition gen_key (g : rng) : outcome (option privkey * rng) :=
  let priv := PrivKey None None (Some (PubKey None None)) in
  match box_generate_key g with
  | (None, g1) => Ret (None, g1)
  | (Some (e, d), g1) =>
      let! p := deref (kPub priv) in
      let priv := PrivKey (Some d) (kS priv) (Some (PubKey (Some e) (pV p))) in
      match ed_generate_key g1 with
      | (None, g2) => Ret (None, g2)
      | (Some (v, s), g2) =>
          let! p := deref (kPub priv) in
          let! v0 := deref (pV p) in
          let! s0 := deref (kS priv) in
          Ret (Some (PrivKey (kD priv) (Some (copy_into 64 s)) (Some (PubKey (pE p) (Some (copy_into 32 v))))), g2)
      end
  end.

(** [box.Seal] and [box.Open]: Precompute, then secretbox. *)
Definition box_seal (msg nonce peer priv : bytes) : bytes := sbox_seal (box_shared peer priv) nonce msg.
Definition box_open (c nonce peer priv : bytes) : option bytes :=
  if decide (length c < 16)%nat then None else sbox_open (box_shared peer priv) nonce c.

(** [encrypt], common/public/crypto.go:248-266; [nonce[:]] of a nil nonce
    (line 261) panics. *)
Definition encrypt_raw (p : option pubkey) (msg : bytes) (g : rng) : outcome (option bytes * rng) :=
  if negb (pub_valid p) then Ret (None, g) else
  match box_generate_key g with
  | (None, g1) => Ret (None, g1)
  | (Some (epub, epriv), g1) =>
      let '(nonce, g2) := new_nonce g1 in
      let! nonce := deref nonce in
      let! p := deref p in
      let! e := deref (pE p) in
      Ret (Some ((epub ++ nonce) ++ box_seal msg nonce e epriv), g2)
  end.

(** [Encrypt], common/public/crypto.go:242-246. *)
Definition pub_encrypt (p : option pubkey) (msg : bytes) (g : rng) : outcome (option bytes * rng) :=
  encrypt_raw p (encode_ [] (VBytes msg)) g.

(** [msgStart], [overhead], common/public/crypto.go:268-269. *)
Definition msgStart : nat := 32 + NonceSize.
Definition overhead : nat := 32 + NonceSize + 16.

(** [decrypt], common/public/crypto.go:294-310. *)
Definition decrypt_raw (k : option privkey) (enc : bytes) : outcome (option bytes) :=
  if negb (priv_valid k) then Ret None else
  if decide (length enc < overhead)%nat then Ret None else
  let pub := copy_into 32 (take 32 enc) in
  let nonce := copy_into NonceSize (drop 32 enc) in
  let! k := deref k in
  let! d := deref (kD k) in
  Ret (box_open (drop msgStart enc) nonce pub d).

(** [Decrypt], common/public/crypto.go:272-292. *)
Definition pub_decrypt (k : option privkey) (enc : bytes) : outcome (option bytes) :=
  let! out := decrypt_raw k enc in
  match out with
  | None => Ret None
  | Some out =>
      let! r := tlv_decode (new_decoder (Slice out [])) TBytes in
      match r with
      | DErr _ => Ret None
      | DOk m dec => if decide (dec_length dec <> 0) then Ret None else Ret (Some (stored m))
      end
  end.

(** [Sign], common/public/crypto.go:313-319. *)
Definition sign (k : option privkey) (msg : bytes) : outcome (option bytes) :=
  if negb (priv_valid k) then Ret None else
  let! k := deref k in
  let! s := deref (kS k) in
  Ret (Some (ed_sign s msg)).

(** [Verify], common/public/crypto.go:323-335. *)
Definition verify (p : option pubkey) (msg sig : bytes) : outcome bool :=
  if negb (pub_valid p) then Ret false else
  if decide (length sig <> 64%nat) then Ret false else
  let! p := deref p in
  let! v := deref (pV p) in
  Ret (ed_verify v msg (copy_into 64 sig)).

(** [EncryptAndSign], common/public/crypto.go:339-354. *)
Definition encrypt_and_sign (k : option privkey) (p : option pubkey) (msg : bytes) (g : rng)
  : outcome (option bytes * rng) :=
  let! sig := sign k msg in
  match sig with
  | None => Ret (None, g)
  | Some sig => encrypt_raw p (encode_ (encode_ [] (VBytes msg)) (VBytes sig)) g
  end.

(** [DecryptAndVerify], common/public/crypto.go:357-400. *)
Definition decrypt_and_verify (k : option privkey) (p : option pubkey) (enc : bytes) : outcome (option bytes) :=
  if negb (priv_valid k) || negb (pub_valid p) then Ret None else
  if decide (length enc < overhead)%nat then Ret None else
  let! out := decrypt_raw k enc in
  match out with
  | None => Ret None
  | Some out =>
      let! r := tlv_decode (new_decoder (Slice out [])) TBytes in
      match r with DErr _ => Ret None | DOk m dec =>
      let! r := tlv_decode dec TBytes in
      match r with DErr _ => Ret None | DOk s dec =>
      if decide (dec_length dec <> 0) then Ret None else
      if decide (length (stored s) <> 64%nat) then Ret None else
      let! ok := verify p (stored m) (stored s) in
      if ok then Ret (Some (stored m)) else Ret None
      end end
  end.

(** [LockKey], common/public/crypto.go:404-426. *)
Definition lock_key (k : option privkey) (pass : bytes) (g : rng) : outcome (option bytes * rng) :=
  let! out := marshal_private k in
  match out with
  | None => Ret (None, g)
  | Some out =>
      match rand 32 g with
      | (None, g1) => Ret (None, g1)
      | (Some salt, g1) =>
          let! key := deref (derive_key pass salt) in
          let! r := encrypt (Some key) out g1 in
          match r with
          | (None, g2) => Ret (None, g2)
          | (Some c, g2) => Ret (Some (salt ++ c), g2)
          end
      end
  end.

(** [UnlockKey], common/public/crypto.go:429-450. *)
Definition unlock_key (locked pass : bytes) : outcome (option privkey) :=
  if decide (length locked <= 32)%nat then Ret None else
  let salt := take 32 locked in
  let locked := drop 32 locked in
  let! key := deref (derive_key pass salt) in
  let! out := decrypt (Some key) locked in
  match out with
  | None => Ret None
  | Some out => unmarshal_private out
  end.

(** [KeyExchange], common/public/crypto.go:454-459; neither pointer is checked. *)
Definition key_exchange (k : option privkey) (peer : option pubkey) : outcome bytes :=
  let! p := deref peer in
  let! k := deref k in
  let! e := deref (pE p) in
  let! d := deref (kD k) in
  Ret (copy_into 32 (box_shared e d)).

End WithCrypto.

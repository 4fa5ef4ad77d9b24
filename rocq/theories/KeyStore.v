(** Model of common/store/keystore.go. Receivers are non-nil; values rather than
    references, except that [Lock] says what becomes of the private key's arrays.
    [time.Now().Unix()] is a parameter, one for each call; so is the order of each
    [range] over the Keys map. Messages on standard output and error are left out.
    No proofs here. *)
From Verif Require Export Public Json Pem Der.
Local Open Scope Z_scope.

(** [PublicKeyRecord], common/store/keystore.go:25-58; nil slices and maps are [None]. *)
Record krec := KRec { krLabel : bytes; krVersion : Z; krTime : Z; krKeys : option bytes; krSig : option bytes;
                      krSigner : option bytes; krSigTime : Z; krMeta : option (gmap bytes bytes) }.
(** [KeyStore], common/store/keystore.go:62-89: [ksBlob] is PrivateKey, [ksPriv]
    is privateKey. *)
Record kstore := KStore { ksVersion : Z; ksTime : Z; ksKeys : option (gmap bytes (option krec)); ksBlob : option bytes;
                          ksPub : option bytes; ksExport : option bytes; ksPriv : option privkey; ksLocked : bool }.

Definition KeyStoreVersion : Z := 1.
Definition self : bytes := bs "self".
Definition VerifiedKeyType : bytes := bs "CRYPTUTIL VERIFIED KEY".

(** A nil slice has no bytes. *)
Definition obytes (o : option bytes) : bytes := default [] o.
Definition kkeys (s : kstore) : gmap bytes (option krec) := default ∅ (ksKeys s).

(** [VerifiedKey], common/store/keystore.go:340-353; nil and empty slices are
    not told apart by any code using it. *)
Record vkey := VKey { vPublic : bytes; vSigner : bytes; vTime : Z; vSig : bytes }.

(** [SignatureData], common/store/keystore.go:392-400. *)
Definition signature_data (v : vkey) : bytes := vPublic v ++ vSigner v ++ be 8 (to_u 64 (vTime v)).

(** [asn1.Marshal] (line 376) and [asn1.Unmarshal(in, &vkey)] (lines 367,
    486); bytes after the sequence and after its last field are ignored. *)
Definition der_vkey (v : vkey) : bytes :=
  der_element TagSequence (der_octets (vPublic v) ++ der_octets (vSigner v) ++ der_int (vTime v) ++ der_octets (vSig v)).
Definition parse_vkey (s : bytes) : option vkey :=
  match der_field TagSequence s with None => None | Some (s, _) =>
  match der_field TagOctetString s with None => None | Some (p, s) =>
  match der_field TagOctetString s with None => None | Some (sg, s) =>
  match der_field TagInteger s with None => None | Some (t, s) =>
  match der_int64 t with None => None | Some t =>
  match der_field TagOctetString s with None => None | Some (sig, _) => Some (VKey p sg t sig)
  end end end end end end.

(** [Serialise], common/store/keystore.go:375-387; it cannot fail. *)
Definition serialise (v : vkey) : bytes := pem_encode VerifiedKeyType [] (der_vkey v).
(** [ParseVerifiedKey], common/store/keystore.go:356-372. *)
Definition parse_verified_key (s : bytes) : option vkey :=
  match pem_decode s with
  | None => None
  | Some (ty, b) => if decide (ty <> VerifiedKeyType) then None else parse_vkey b
  end.

(** [Valid], common/store/keystore.go:236-277: the quick part and the rest. *)
Definition ks_quick (s : kstore) : bool :=
  bool_decide (ksVersion s = KeyStoreVersion) && bool_decide (ksTime s <> 0) && bool_decide (ksKeys s <> None).
Definition ks_valid (s : kstore) : outcome bool :=
  if negb (ks_quick s) then Ret false else
  let! own :=
    if ksLocked s then Ret true else
    if negb (priv_valid (ksPriv s)) then Ret false else
    let! k := deref (ksPriv s) in
    let! pub := marshal_public (kPub k) in
    match pub with
    | None => Ret false
    | Some pub => Ret (bool_decide (pub = obytes (ksPub s)))
    end in
  if negb own then Ret false else
  match ksPub s with
  | None => Ret false
  | Some p => match unmarshal_public p with None => Ret false | Some _ => Ret true end
  end.

(** [Has], common/store/keystore.go:280-289. *)
Definition ks_has (s : kstore) (label : bytes) : bool :=
  if negb (ks_quick s) then false else
  if decide (label = self) then true else bool_decide (is_Some (kkeys s !! label)).

(** [s.Keys[label].Keys]: panics on a missing or nil record. *)
Definition keys_of (s : kstore) (label : bytes) : outcome (option bytes) :=
  match kkeys s !! label with Some (Some r) => Ret (krKeys r) | _ => Panic end.

(** [FindPublic], common/store/keystore.go:534-548: the label in the first record
    met that has this key; a nil record panics. *)
Definition korder := list (bytes * option krec).
Fixpoint find_loop (o : korder) (pub : bytes) : outcome (option bytes) :=
  match o with
  | [] => Ret None
  | (_, None) :: _ => Panic
  | (_, Some v) :: o => if decide (pub = obytes (krKeys v)) then Ret (Some (krLabel v)) else find_loop o pub
  end.
Definition find_public (o : korder) (s : kstore) (pub : bytes) : outcome (option bytes) :=
  if decide (pub = obytes (ksPub s)) then Ret (Some self) else find_loop o pub.

(** Fields set by the operations below. *)
Definition with_priv (s : kstore) (k : option privkey) (locked : bool) : kstore :=
  KStore (ksVersion s) (ksTime s) (ksKeys s) (ksBlob s) (ksPub s) (ksExport s) k locked.
Definition with_blob (s : kstore) (b : option bytes) : kstore :=
  KStore (ksVersion s) (ksTime s) (ksKeys s) b (ksPub s) (ksExport s) (ksPriv s) (ksLocked s).
Definition with_pub (s : kstore) (p : option bytes) : kstore :=
  KStore (ksVersion s) (ksTime s) (ksKeys s) (ksBlob s) p (ksExport s) (ksPriv s) (ksLocked s).
Definition with_export (s : kstore) (e : option bytes) : kstore :=
  KStore (ksVersion s) (ksTime s) (ksKeys s) (ksBlob s) (ksPub s) e (ksPriv s) (ksLocked s).
Definition put_key (s : kstore) (label : bytes) (r : krec) : outcome kstore :=
  match ksKeys s with
  | None => Panic
  | Some m => Ret (KStore (ksVersion s) (ksTime s) (Some (<[label := Some r]> m)) (ksBlob s) (ksPub s) (ksExport s)
                     (ksPriv s) (ksLocked s))
  end.
(** Go's [delete(store.Keys, label)]. *)
Definition remove_key (s : kstore) (label : bytes) : kstore :=
  KStore (ksVersion s) (ksTime s) (option_map (delete label) (ksKeys s)) (ksBlob s) (ksPub s) (ksExport s)
    (ksPriv s) (ksLocked s).

(** *** JSON *)
(** [json.Marshal] of the exported fields, in declaration order. *)
Definition jkrec (r : option krec) : json :=
  match r with
  | None => JNull
  | Some r => JObj [(bs "Label", JStr (krLabel r)); (bs "Version", jint (krVersion r)); (bs "Timestamp", jint (krTime r));
                    (bs "Keys", jbytes (krKeys r)); (bs "KeySignature", jbytes (krSig r));
                    (bs "KeySigner", jbytes (krSigner r)); (bs "SignatureTime", jint (krSigTime r));
                    (bs "Metadata", jmap JStr (krMeta r))]
  end.
Definition jkstore (s : kstore) : json :=
  JObj [(bs "Version", jint (ksVersion s)); (bs "Timestamp", jint (ksTime s)); (bs "Keys", jmap jkrec (ksKeys s));
        (bs "PrivateKey", jbytes (ksBlob s)); (bs "PublicKey", jbytes (ksPub s)); (bs "ExportKey", jbytes (ksExport s))].

(** [json.Unmarshal(data, store)] (line 769). *)
Definition krec_field (k : bytes) (j : json) (r : krec) : option krec :=
  let 'KRec l ve t ks sg si st md := r in
  if field_is (bs "Label") k then match dec_str l j with Some v => Some (KRec v ve t ks sg si st md) | None => None end
  else if field_is (bs "Version") k then match dec_int ve j with Some v => Some (KRec l v t ks sg si st md) | None => None end
  else if field_is (bs "Timestamp") k then match dec_int t j with Some v => Some (KRec l ve v ks sg si st md) | None => None end
  else if field_is (bs "Keys") k then match dec_bytes ks j with Some v => Some (KRec l ve t v sg si st md) | None => None end
  else if field_is (bs "KeySignature") k then match dec_bytes sg j with Some v => Some (KRec l ve t ks v si st md) | None => None end
  else if field_is (bs "KeySigner") k then match dec_bytes si j with Some v => Some (KRec l ve t ks sg v st md) | None => None end
  else if field_is (bs "SignatureTime") k then match dec_int st j with Some v => Some (KRec l ve t ks sg si v md) | None => None end
  else if field_is (bs "Metadata") k then
    match dec_map (dec_str []) md j with Some v => Some (KRec l ve t ks sg si st v) | None => None end
  else Some r.
Definition dec_krec (j : json) : option krec := dec_struct krec_field (KRec [] 0 0 None None None 0 None) j.
Definition kstore_field (k : bytes) (j : json) (s : kstore) : option kstore :=
  let 'KStore ve t ks b p e pr lk := s in
  if field_is (bs "Version") k then match dec_int ve j with Some v => Some (KStore v t ks b p e pr lk) | None => None end
  else if field_is (bs "Timestamp") k then match dec_int t j with Some v => Some (KStore ve v ks b p e pr lk) | None => None end
  else if field_is (bs "Keys") k then
    match dec_map (dec_ptr dec_krec) ks j with Some v => Some (KStore ve t v b p e pr lk) | None => None end
  else if field_is (bs "PrivateKey") k then match dec_bytes b j with Some v => Some (KStore ve t ks v p e pr lk) | None => None end
  else if field_is (bs "PublicKey") k then match dec_bytes p j with Some v => Some (KStore ve t ks b v e pr lk) | None => None end
  else if field_is (bs "ExportKey") k then match dec_bytes e j with Some v => Some (KStore ve t ks b p v pr lk) | None => None end
  else Some s.
Definition dec_kstore (j : json) : option kstore :=
  dec_struct kstore_field (KStore 0 0 None None None None None false) j.

(** [Dump], common/store/keystore.go:130-140. *)
Definition ks_dump (s : kstore) : bytes :=
  print (jkstore (KStore (ksVersion s) (ksTime s) (ksKeys s) (ksBlob s) (ksPub s) (ksExport s) None false)).

(** [Lock], common/store/keystore.go:149-162. The last component is what the
    private key object has become (with its two arrays), when it was wiped. *)
Definition ks_lock (s : kstore) : outcome (bool * kstore * option (privkey * bytes * bytes)) :=
  let! v := ks_valid s in
  if negb v then Ret (false, s, None) else
  if ksLocked s then Ret (true, s, None) else
  let! z := priv_zero (ksPriv s) in
  Ret (true, with_priv s None true, Some z).

(** [DumpKeyStore], common/store/keystore.go:790-797. *)
Definition dump_keystore (s : kstore) : outcome (bytes * kstore) :=
  let! r := ks_lock s in
  let '(_, s, _) := r in
  Ret (print (jkstore s), s).

Section WithCrypto.
Context `{C : Crypto}.

(** The self-signed certificate made at lines 102-116, 210-226. *)
Definition certify (k : option privkey) (public signer : bytes) (now : Z) : outcome (option vkey) :=
  let! sig := sign k (signature_data (VKey public signer now [])) in
  match sig with None => Ret None | Some sig => Ret (Some (VKey public signer now sig)) end.

(** [NewPrivateKeyStore], common/store/keystore.go:92-128. *)
Definition new_kstore (now now2 : Z) (k : option privkey) : outcome (option kstore) :=
  if negb (priv_valid k) then Ret None else
  let! kk := deref k in
  let! pub := marshal_public (kPub kk) in
  match pub with
  | None => Ret None
  | Some pub =>
      let! v := certify k pub pub now in
      match v with
      | None => Ret None
      | Some v => Ret (Some (KStore KeyStoreVersion now2 (Some ∅) None (Some pub) (Some (serialise v)) k false))
      end
  end.

(** [LockWith], common/store/keystore.go:166-184. A failing LockKey leaves
    PrivateKey nil. *)
Definition ks_lock_with (s : kstore) (pass : bytes) (g : rng)
  : outcome (bool * kstore * option (privkey * bytes * bytes) * rng) :=
  let! v := ks_valid s in
  if negb v then Ret (false, s, None, g) else
  if ksLocked s then Ret (true, s, None, g) else
  let! r := lock_key (ksPriv s) pass g in
  let '(blob, g) := r in
  let s := with_blob s blob in
  match blob with
  | None => Ret (false, s, None, g)
  | Some _ => let! z := priv_zero (ksPriv s) in Ret (true, with_priv s None true, Some z, g)
  end.

(** [Unlock], common/store/keystore.go:187-231. *)
Definition ks_unlock (now : Z) (s : kstore) (pass : bytes) : outcome (bool * kstore) :=
  if negb (ks_quick s) then Ret (false, s) else
  if negb (ksLocked s) then Ret (true, s) else
  let! k := unlock_key (obytes (ksBlob s)) pass in
  match k with
  | None => Ret (false, s)
  | Some k =>
      let! pub := marshal_public (kPub k) in
      match pub with
      | None => let! _ := priv_zero (Some k) in Ret (false, s)
      | Some pub =>
          let s := with_pub (with_priv s (Some k) false) (Some pub) in
          match ksExport s with
          | Some _ => Ret (negb (ksLocked s), s)
          | None =>
              let! v := certify (ksPriv s) pub pub now in
              match v with
              | None => let! r := ks_lock s in let '(_, s, _) := r in Ret (false, s)
              | Some v => let s := with_export s (Some (serialise v)) in Ret (negb (ksLocked s), s)
              end
          end
      end
  end.

(** [AddKey], common/store/keystore.go:293-335. *)
Definition ks_add (now now2 : Z) (s : kstore) (label peer : bytes) (md : option (gmap bytes bytes)) : outcome (bool * kstore) :=
  if negb (ks_quick s) then Ret (false, s) else
  if ks_has s label then Ret (false, s) else
  if ksLocked s then Ret (false, s) else
  match unmarshal_public peer with
  | None => Ret (false, s)
  | Some _ =>
      let data := signature_data (VKey peer (obytes (ksPub s)) now []) in
      let! sig := sign (ksPriv s) data in
      match sig with
      | None => Ret (false, s)
      | Some sig =>
          let! k := deref (ksPriv s) in
          let! ok := verify (kPub k) data sig in
          if negb ok then Ret (false, s) else
          let! s' := put_key s label (KRec label 0 now2 (Some peer) (Some sig) (ksPub s) now (Some (default ∅ md))) in
          Ret (true, s')
      end
  end.

(** [IsSelfSigned], common/store/keystore.go:403-415. *)
Definition is_self_signed (v : vkey) : outcome bool :=
  if decide (vPublic v <> vSigner v) then Ret false else
  match unmarshal_public (vSigner v) with
  | None => Ret false
  | Some p => verify (Some p) (signature_data v) (vSig v)
  end.

(** [VerifyKeySignature], common/store/keystore.go:553-591: [o] is the order in
    which FindPublic meets the records. *)
Definition verify_key_signature (o : korder) (s : kstore) (label : bytes) : outcome (option bytes) :=
  if negb (ks_quick s) then Ret None else
  if decide (label = self) then Ret (Some self) else
  match kkeys s !! label with
  | Some (Some r) =>
      let! who :=
        if decide (obytes (krSigner r) = obytes (ksPub s)) then Ret (Some (self, obytes (ksPub s))) else
        let! f := find_public o s (obytes (krSigner r)) in
        match f with
        | None => Ret None
        | Some l => let! k := keys_of s l in Ret (Some (l, obytes k))
        end in
      match who with
      | None => Ret None
      | Some (signer, key) =>
          match unmarshal_public key with
          | None => Ret None
          | Some p =>
              let! ok := verify (Some p) (signature_data (VKey (obytes (krKeys r)) key (krSigTime r) []))
                           (obytes (krSig r)) in
              Ret (if ok then Some signer else None)
          end
      end
  | _ => Panic
  end.

(** [VerifyChain], common/store/keystore.go:598-619: [os i] is the order of the
    i-th search; [None] means that the loop is still running after [f] rounds. *)
Fixpoint chain_loop (os : nat -> korder) (f i : nat) (s : kstore) (label : bytes) : outcome (option bool) :=
  match f with
  | O => Ret None
  | S f =>
      let! r := verify_key_signature (os i) s label in
      match r with
      | None => Ret (Some false)
      | Some signer => if decide (signer = self) then Ret (Some true) else chain_loop os f (S i) s signer
      end
  end.
Definition verify_chain (os : nat -> korder) (f : nat) (s : kstore) (label : bytes) : outcome (option bool) :=
  if negb (ks_quick s) || negb (ks_has s label) then Ret (Some false) else
  if decide (label = self) then Ret (Some true) else chain_loop os f 0 s label.

(** [KeyAudit], common/store/keystore.go:625-637: [labels] is the order of its
    own loop. *)
Fixpoint audit_loop (os : nat -> nat -> korder) (f i : nat) (s : kstore) (labels : korder) : outcome (option bool) :=
  match labels with
  | [] => Ret (Some true)
  | (l, _) :: labels =>
      let! r := verify_chain (os i) f s l in
      match r with
      | None => Ret None
      | Some false => Ret (Some false)
      | Some true => audit_loop os f (S i) s labels
      end
  end.
Definition key_audit (os : nat -> nat -> korder) (f : nat) (s : kstore) (labels : korder) : outcome (option bool) :=
  if negb (ks_quick s) then Ret (Some false) else audit_loop os f 0 s labels.

(** [ExportVerified], common/store/keystore.go:423-460; [None]: still in
    VerifyChain. *)
Definition export_verified (os : nat -> korder) (f : nat) (now : Z) (s : kstore) (label : bytes) : outcome (option (option bytes)) :=
  if negb (ks_quick s) || negb (ks_has s label) || ksLocked s then Ret (Some None) else
  let! t := verify_chain os f s label in
  match t with
  | None => Ret None
  | Some false => Ret (Some None)
  | Some true =>
      let finish key :=
        let! v := certify (ksPriv s) key (obytes (ksPub s)) now in
        match v with None => Ret (Some None) | Some v => Ret (Some (Some (serialise v))) end in
      if decide (label = self) then
        match ksExport s with
        | Some e => Ret (Some (Some e))
        | None => finish (obytes (ksPub s))
        end
      else let! k := keys_of s label in finish (obytes k)
  end.

(** [ImportVerified], common/store/keystore.go:478-531: [o1] and [o2] are the
    orders of the two searches. *)
Definition import_verified (o1 o2 : korder) (now : Z) (s : kstore) (label data : bytes) : outcome (bool * kstore) :=
  if negb (ks_quick s) || ks_has s label then Ret (false, s) else
  match parse_vkey data with
  | None => Ret (false, s)
  | Some v =>
      let! who :=
        if decide (vSigner v = obytes (ksPub s)) then Ret (Some (self, ksPub s)) else
        let! f := find_public o1 s (vSigner v) in
        match f with
        | None => Ret None
        | Some l => let! k := keys_of s l in Ret (Some (l, k))
        end in
      match who with
      | None => Ret (false, s)
      | Some (signer, pub) =>
          match pub with
          | None => Ret (false, s)
          | Some pub =>
              if decide (signer = []) then Ret (false, s) else
              let! ok := verify_key_signature o2 s signer in
              match ok with
              | None => Ret (false, s)
              | Some _ =>
                  match unmarshal_public pub with
                  | None => Ret (false, s)
                  | Some p =>
                      let! ok := verify (Some p) (signature_data v) (vSig v) in
                      if negb ok then Ret (false, s) else
                      let! s' := put_key s label (KRec label KeyStoreVersion now (Some (vPublic v)) (Some (vSig v)) (Some pub)
                                                    (vTime v) None) in
                      Ret (true, s')
                  end
              end
          end
      end
  end.

(** [ImportVerifiedKey], common/store/keystore.go:463-474. *)
Definition import_verified_key (o1 o2 : korder) (now : Z) (s : kstore) (label signed : bytes) : outcome (bool * kstore) :=
  match pem_decode signed with
  | None => Ret (false, s)
  | Some (ty, b) => if decide (ty <> VerifiedKeyType) then Ret (false, s) else import_verified o1 o2 now s label b
  end.

(** [getPublic], common/store/keystore.go:639-659. *)
Definition get_public (s : kstore) (label : bytes) : outcome (option pubkey) :=
  if negb (ks_has s label) then Ret None else
  if decide (label = self) then
    if ksLocked s then Ret (unmarshal_public (obytes (ksPub s)))
    else let! k := deref (ksPriv s) in Ret (kPub k)
  else let! k := keys_of s label in Ret (unmarshal_public (obytes k)).

(** [EncryptTo], common/store/keystore.go:662-680. *)
Definition ks_encrypt_to (s : kstore) (label msg : bytes) (g : rng) : outcome (option bytes * rng) :=
  if negb (ks_quick s) || negb (ks_has s label) then Ret (None, g) else
  let! b := if decide (label = self) then Ret (ksPub s) else keys_of s label in
  match unmarshal_public (obytes b) with
  | None => Ret (None, g)
  | Some p => pub_encrypt (Some p) msg g
  end.

(** [Decrypt], common/store/keystore.go:683-689. *)
Definition ks_decrypt (s : kstore) (msg : bytes) : outcome (option bytes) :=
  let! v := ks_valid s in
  if negb v || ksLocked s then Ret None else pub_decrypt (ksPriv s) msg.

(** [Sign], common/store/keystore.go:692-698. *)
Definition ks_sign (s : kstore) (msg : bytes) : outcome (option bytes) :=
  let! v := ks_valid s in
  if negb v || ksLocked s then Ret None else sign (ksPriv s) msg.

(** [Verify], common/store/keystore.go:702-715. *)
Definition ks_verify (s : kstore) (label msg sig : bytes) : outcome bool :=
  if negb (ks_quick s) then Ret false else
  if negb (ks_has s label) then Ret false else
  let! p := get_public s label in
  match p with None => Ret false | Some p => verify (Some p) msg sig end.

(** [EncryptAndSignTo], common/store/keystore.go:718-731. *)
Definition ks_encrypt_sign_to (s : kstore) (label msg : bytes) (g : rng) : outcome (option bytes * rng) :=
  let! v := ks_valid s in
  if negb v || ksLocked s then Ret (None, g) else
  if negb (ks_has s label) then Ret (None, g) else
  let! p := get_public s label in
  match p with None => Ret (None, g) | Some p => encrypt_and_sign (ksPriv s) (Some p) msg g end.

(** [DecryptAndVerify], common/store/keystore.go:735-748. *)
Definition ks_decrypt_verify (s : kstore) (label msg : bytes) : outcome (option bytes) :=
  let! v := ks_valid s in
  if negb v || ksLocked s then Ret None else
  if negb (ks_has s label) then Ret None else
  let! p := get_public s label in
  match p with None => Ret None | Some p => decrypt_and_verify (ksPriv s) (Some p) msg end.

(** [LoadKeyStore], common/store/keystore.go:753-786. Simplification: a file
    that exists can be read. *)
Definition load_kstore (f : fs) (path : bytes) (orNew : bool) (now now2 : Z) (g : rng) : outcome (option kstore * rng) :=
  match read_file f path with
  | None =>
      if orNew then
        let! r := gen_key g in
        let '(k, g) := r in
        match k with
        | None => Ret (None, g)
        | Some k => let! s := new_kstore now now2 (Some k) in Ret (s, g)
        end
      else Ret (None, g)
  | Some data =>
      match parse_json data with
      | None => Ret (None, g)
      | Some j =>
          match dec_kstore j with
          | None => Ret (None, g)
          | Some s =>
              let s := KStore (ksVersion s) (ksTime s) (Some (kkeys s)) (ksBlob s) (ksPub s) (ksExport s) (ksPriv s)
                         (match ksBlob s with None => ksLocked s | Some _ => true end) in
              if negb (ks_quick s) then Ret (None, g) else Ret (Some s, g)
          end
      end
  end.
End WithCrypto.

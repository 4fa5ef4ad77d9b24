(** Specification vocabulary for key stores, written without the model's
    functions. *)
From Verif Require Export KeyStore SpecPublic SpecStore SpecDer.
Local Open Scope Z_scope.

(** The conditions the quick validity test checks. *)
Definition ready (s : kstore) : Prop := ksVersion s = 1 /\ ksTime s <> 0 /\ ksKeys s <> None.
(** What the store holds under a label. *)
Definition krecord (s : kstore) (l : bytes) (r : krec) : Prop :=
  exists m, ksKeys s = Some m /\ m !! l = Some (Some r).
Definition kpresent (s : kstore) (l : bytes) : Prop := exists m v, ksKeys s = Some m /\ m !! l = Some v.
(** The bytes of a field, the owner's key, the key of a record. *)
Definition octets_of (o : option bytes) : bytes := match o with Some b => b | None => [] end.
Definition owner (s : kstore) : bytes := octets_of (ksPub s).
Definition subject (r : krec) : bytes := octets_of (krKeys r).
Definition signer (r : krec) : bytes := octets_of (krSigner r).
Definition signature (r : krec) : bytes := octets_of (krSig r).

(** Properties every store made by AddKey and ImportVerified has: no nil record,
    records under their own label, none called "self". *)
Definition kwell (s : kstore) : Prop :=
  forall m l v, ksKeys s = Some m -> m !! l = Some v ->
    l <> bs "self" /\ exists r, v = Some r /\ krLabel r = l.
(** No key is stored twice and the owner's key is not stored. *)
Definition distinct_keys (s : kstore) : Prop :=
  (forall l l' r r', krecord s l r -> krecord s l' r' -> subject r = subject r' -> l = l') /\
  (forall l r, krecord s l r -> subject r <> owner s).

(** A possible order of a [range] over the map. *)
Definition an_order (s : kstore) (o : korder) : Prop := exists m, ksKeys s = Some m /\ o ≡ₚ map_to_list m.
Definition orders (s : kstore) (os : nat -> korder) : Prop := forall i, an_order s (os i).

(** int64 fields, and UTF-8 text in all strings. *)
Definition go_kstore (s : kstore) : Prop :=
  int64 (ksVersion s) /\ int64 (ksTime s) /\
  forall l r, krecord s l r -> int64 (krVersion r) /\ int64 (krTime r) /\ int64 (krSigTime r).
Definition text_kstore (s : kstore) : Prop :=
  forall m l v, ksKeys s = Some m -> m !! l = Some v ->
    utf8_text l /\ forall r, v = Some r -> utf8_text (krLabel r) /\
      forall md k t, krMeta r = Some md -> md !! k = Some t -> utf8_text k /\ utf8_text t.
(** The array lengths Go's types give. *)
Definition go_priv (s : kstore) : Prop := forall k, ksPriv s = Some k -> wf_priv k.
(** A private key whose secret arrays were zeroed and dropped. *)
Definition wiped_key (k : privkey) (z : privkey * bytes * bytes) : Prop :=
  exists d sg, kD k = Some d /\ kS k = Some sg /\ z = (PrivKey None None (kPub k), replicate (length d) x00, replicate (length sg) x00).
(** What a dump loads as. *)
Definition closed_copy (s : kstore) : kstore :=
  KStore (ksVersion s) (ksTime s) (ksKeys s) (ksBlob s) (ksPub s) (ksExport s) None (match ksBlob s with None => false | Some _ => true end).


Section WithCrypto.
Context `{C : Crypto}.

(** [sig] is a signature by the key pair with public key [key] on the
    certificate (subject, key, time). *)
Definition certified (subj key : bytes) (time : Z) (sig : bytes) : Prop :=
  length key = 64%nat /\ length sig = 64%nat /\
  ed_verify (drop 32 key) (subj ++ key ++ be 8 (time mod 2 ^ 64)) sig = true.
(** The record's stored signature is good under [key]. *)
Definition good_under (r : krec) (key : bytes) : Prop := certified (subject r) key (krSigTime r) (signature r).

(** A finite chain of stored keys from the label to the owner. *)
Inductive trusted (s : kstore) : bytes -> Prop :=
  | tr_owner l r : krecord s l r -> signer r = owner s -> good_under r (owner s) -> trusted s l
  | tr_signed l r l' r' : krecord s l r -> krecord s l' r' -> good_under r (subject r') -> trusted s l' -> trusted s l.

(** One step of the search: the signature under [l] is good under the key found
    at [l'], which is the label in a record having the signer's key. *)
Definition follows (s : kstore) (l l' : bytes) : Prop :=
  l <> bs "self" /\ l' <> bs "self" /\
  exists r k v r', krecord s l r /\ signer r <> owner s /\ krecord s k v /\ subject v = signer r /\ krLabel v = l' /\
    krecord s l' r' /\ good_under r (subject r').

(** The certificate under [l] (one link of the chain) is good: by the owner, or
    by a stored key. *)
Definition endorsed (s : kstore) (l : bytes) : Prop :=
  exists r, krecord s l r /\
    ((signer r = owner s /\ good_under r (owner s)) \/
     (signer r <> owner s /\ exists l' r', krecord s l' r' /\ subject r' = signer r /\ good_under r (subject r'))).

(** The private key belongs to the store: what the full validity test checks. *)
Definition owns (s : kstore) (k : privkey) : Prop :=
  exists d sg e v, k = PrivKey (Some d) (Some sg) (Some (PubKey (Some e) (Some v))) /\ wf_priv k /\ owner s = e ++ v.
Definition healthy (s : kstore) : Prop :=
  ready s /\ length (owner s) = 64%nat /\ (ksLocked s = false -> exists k, ksPriv s = Some k /\ owns s k).
(** When a certificate may enter the store. *)
Definition importable (s : kstore) (l : bytes) (v : vkey) : Prop :=
  ready s /\ l <> bs "self" /\ ~ kpresent s l /\ certified (vPublic v) (vSigner v) (vTime v) (vSig v) /\
  (vSigner v = owner s \/
   vSigner v <> owner s /\ exists l' r', krecord s l' r' /\ subject r' = vSigner v /\ l' <> [] /\ endorsed s l').

(** Key pairs: the public key, a store holding the pair, a store that can reach
    the owner of the pair under a label. *)
Definition pub_of (d seed : bytes) : bytes := box_pub d ++ ed_pub seed.
Definition holds_pair (s : kstore) (d seed : bytes) : Prop :=
  ready s /\ ksLocked s = false /\ ksPriv s = Some (keypair d seed) /\ owner s = pub_of d seed.
(** [s] can reach the owner of the key pair under [l]. *)
Definition knows (s : kstore) (l d seed : bytes) : Prop :=
  l = bs "self" /\ ksLocked s = false /\ ksPriv s = Some (keypair d seed) /\ owner s = pub_of d seed \/
  l <> bs "self" /\ exists r, krecord s l r /\ subject r = pub_of d seed.
(** Stores made by the package's own operations. Unlock is constrained to give
    back the owner's key, which a forged blob might not do. *)
Inductive built : kstore -> Prop :=
  | bt_new now now2 k s : wf_priv k -> now2 <> 0 -> new_kstore now now2 (Some k) = Ret (Some s) -> built s
  | bt_add now now2 s l peer md b s' : built s -> ks_add now now2 s l peer md = Ret (b, s') -> built s'
  | bt_import o1 o2 now s l data b s' : built s -> an_order s o1 -> an_order s o2 ->
      import_verified o1 o2 now s l data = Ret (b, s') -> built s'
  | bt_import_pem o1 o2 now s l data b s' : built s -> an_order s o1 -> an_order s o2 ->
      import_verified_key o1 o2 now s l data = Ret (b, s') -> built s'
  | bt_lock s b s' z : built s -> ks_lock s = Ret (b, s', z) -> built s'
  | bt_lock_with s pass g b s' z g' : built s -> ks_lock_with s pass g = Ret (b, s', z, g') -> built s'
  | bt_unlock now s pass b s' : built s -> ks_unlock now s pass = Ret (b, s') -> owner s' = owner s -> built s'
  | bt_reload f path orNew now now2 g s s' g' : built s -> go_kstore s -> text_kstore s -> f !! path = Some (ks_dump s) ->
      load_kstore f path orNew now now2 g = Ret (Some s', g') -> built s'.

End WithCrypto.

(** The record ImportVerified and AddKey leave under the label; nothing else
    changes. *)
Definition added (s : kstore) (l : bytes) (r : krec) (s' : kstore) : Prop :=
  exists m, ksKeys s = Some m /\
    s' = KStore (ksVersion s) (ksTime s) (Some (<[l := Some r]> m)) (ksBlob s) (ksPub s) (ksExport s) (ksPriv s) (ksLocked s).

(** The certificate a DER text carries; what follows the four fields, inside and
    after the sequence, is ignored. *)
Definition der_certificate (data subj key : bytes) (time : Z) (sig : bytes) : Prop :=
  exists p k t ti s junk body rest, element x04 subj p /\ element x04 key k /\ int_contents time ti /\ element x02 ti t /\
    element x04 sig s /\ element x30 (p ++ k ++ t ++ s ++ junk) body /\ data = body ++ rest /\
    int64 time /\ zlen (p ++ k ++ t ++ s ++ junk) < 2 ^ 31.

(** The public part of a store: what a file can hold. *)
Definition same_public (s s' : kstore) : Prop :=
  ksVersion s = ksVersion s' /\ ksTime s = ksTime s' /\ ksKeys s = ksKeys s' /\ ksBlob s = ksBlob s' /\
  ksPub s = ksPub s' /\ ksExport s = ksExport s'.
(** Certificates that fit: the body below 2^31 bytes, the time an int64. *)
Definition small_vkey (v : vkey) : Prop := int64 (vTime v) /\ zlen (vPublic v) + zlen (vSigner v) + zlen (vSig v) < 2 ^ 30.

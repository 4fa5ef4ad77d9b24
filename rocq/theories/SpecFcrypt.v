(** Specification vocabulary for fcrypt, written without the functions of its
    model. *)
From Verif Require Export Fcrypt SpecCmd SpecKeyStore.
Local Open Scope Z_scope.

(** The file a command writes its result to. *)
Definition out_path (k : fcmd) (args : list bytes) : option bytes :=
  match k, args with
  | (FEncrypt | FCryptSign | FDecrypt | FDecryptSigned | FSign), _ :: p :: _ => Some p
  | (FExport | FExportSelf), p :: _ => Some p
  | _, _ => None
  end.

(** A time, and nothing else, is changed. *)
Definition at_time (s : kstore) (t : Z) : kstore :=
  KStore (ksVersion s) t (ksKeys s) (ksBlob s) (ksPub s) (ksExport s) (ksPriv s) (ksLocked s).
(** A label, and nothing else, is gone. *)
Definition without (s : kstore) (l : bytes) (s' : kstore) : Prop :=
  exists m, ksKeys s = Some m /\
    s' = KStore (ksVersion s) (ksTime s) (Some (delete l m)) (ksBlob s) (ksPub s) (ksExport s) (ksPriv s) (ksLocked s).
(** Texts with or without armour of a type. *)
Definition armoured_as (a : bool) (ty data text : bytes) : Prop := text = if a then pem_encode ty [] data else data.
Definition begins_like_armour (s : bytes) : Prop := exists rest, s = bs "-----BEGIN" ++ rest /\ rest <> [].

Section WithCrypto.
Context `{C : Crypto}.
(** The file at [path] is a key store that fcrypt takes. *)
Definition key_file (f : fs) (path : bytes) (s : kstore) : Prop :=
  path <> [] /\ (exists d, f !! path = Some d) /\ (forall orNew n1 n2 g, load_kstore f path orNew n1 n2 g = Ret (Some s, g)) /\ healthy s.

(** [sig] is a signature on [m] by the key under [l]. *)
Definition key_under (s : kstore) (l key : bytes) : Prop :=
  l = bs "self" /\ key = owner s \/ l <> bs "self" /\ exists r, krecord s l r /\ key = subject r.
Definition signed_by (s : kstore) (l m sig : bytes) : Prop :=
  exists key, key_under s l key /\ length key = 64%nat /\ length sig = 64%nat /\ ed_verify (drop 32 key) m sig = true.
(** [s'] is [s] with its private key at hand, and a certificate if there was none. *)
Definition opened (s s' : kstore) : Prop :=
  ksVersion s' = ksVersion s /\ ksTime s' = ksTime s /\ ksKeys s' = ksKeys s /\ ksBlob s' = ksBlob s /\
  ksLocked s' = false /\ (ksExport s <> None -> ksExport s' = ksExport s) /\ ksExport s' <> None /\
  exists k, ksPriv s' = Some k /\ owns s' k.
(** A record that no key in the store has signed. *)
Definition orphan (s : kstore) (l : bytes) : Prop :=
  l <> bs "self" /\ exists r, krecord s l r /\ signer r <> owner s /\ forall k x, krecord s k x -> subject x <> signer r.
(** The line of the listing for a record. *)
Definition line_of (s : kstore) (kv : bytes * option krec) (x : listed) : Prop :=
  exists r, snd kv = Some r /\ liLabel x = fst kv /\ liTime x = krTime r /\ liSigned x = krSigTime r /\ liPrint x = hex_encode (sha256 (subject r)) /\
    match liSigner x with
    | Some who => signer r = owner s /\ who = bs "self" \/ signer r <> owner s /\ exists k y, krecord s k y /\ subject y = signer r /\ krLabel y = who
    | None => signer r <> owner s /\ forall k y, krecord s k y -> subject y <> signer r
    end.
(** A command with two files on a working disk, and the passphrase it is given. *)
Definition on_files (k : fcmd) (a : bool) (l : fflags) (w : world) (p q : bytes) (s : kstore) : Prop :=
  key_file (wFs w) (lPath l) s /\ chosen l = Some (k, a) /\ (exists rest, lArgs l = p :: q :: rest) /\ plain_path p /\ plain_path q /\ disk_ok w.
Definition passes (w : world) (s s1 : kstore) : Prop :=
  exists pass ps, wPw w = Some pass :: ps /\ ks_unlock (nth 2 (wClk w) 0) s pass = Ret (true, s1).
(** What a text is taken for: armour of a type, or the bytes themselves. *)
Definition taken_as (text : bytes) (ty : option bytes) (c : bytes) : Prop :=
  match ty with
  | None => ~ begins_like_armour text /\ c = text
  | Some ty => begins_like_armour text /\ pem_decode text = Some (ty, c)
  end.
End WithCrypto.

(** The commands that change the store. *)
Definition mutates (k : fcmd) : Prop := k = FImport \/ k = FUImport \/ k = FRemove.

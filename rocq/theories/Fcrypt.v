(** Model of exp/fcrypt/fcrypt.go. The flags are given as a record: flag.Parse and
    the default path of the key store are left out. The iteration orders of Go's
    maps are a parameter, as in KeyStore.v, and so is the number of rounds a chain
    of signatures is followed. [time.Now().Unix()] is called before every operation
    that may look at it: the clock is arbitrary, so unused calls make no
    difference. Of the messages only those that are a command's result are
    represented. No proofs here. *)
From Verif Require Export KeyStore Cmd.
Local Open Scope Z_scope.

(** common/public/crypto.go:24-26. *)
Definition EncryptedType : bytes := bs "CRYPTUTIL ENCRYPTED MESSAGE".
Definition SignatureType : bytes := bs "CRYPTUTIL SIGNATURE".
Definition SignedAndEncryptedType : bytes := bs "CRYPTUTIL SIGNED AND ENCRYPTED MESSAGE".

(** The orders of the searches for a signer (two inside ImportVerified, one after
    it; those of VerifyChain, of each chain of KeyAudit and of KeyAudit itself; the
    one of the listing and that of its searches), and the rounds. *)
Record forders := FO { foOne : korder; foTwo : korder; foThree : korder; foChain : nat -> korder; foChains : nat -> nat -> korder;
                       foAudit : korder; foList : korder; foListFind : nat -> korder; foRounds : nat }.

(** [config], exp/fcrypt/fcrypt.go:31-35. *)
Record fcfg := FCfg { fArgs : list bytes; fLabel : bytes; fArmour : bool }.
Definition farg (n : nat) (c : fcfg) : bytes := nth n (fArgs c) [].

(** [commandSet], exp/fcrypt/fcrypt.go:37-51. *)
Inductive fcmd := FEncrypt | FCryptSign | FDecrypt | FDecryptSigned | FSign | FVerify | FCheck | FExport | FExportSelf | FImport | FUImport | FRemove | FList.
Definition needs_unlock (k : fcmd) : bool :=
  match k with FCryptSign | FDecrypt | FDecryptSigned | FSign | FCheck | FExport | FImport | FUImport => true | _ => false end.
Definition should_write (k : fcmd) : bool := match k with FImport | FUImport | FRemove => true | _ => false end.
Definition required_argc (k : fcmd) : nat :=
  match k with
  | FEncrypt | FCryptSign | FDecrypt | FDecryptSigned | FSign | FVerify => 2
  | FExport | FExportSelf | FImport | FUImport | FRemove => 1
  | FCheck | FList => 0
  end.

(** The files, by path: no file has the empty path. *)
Definition w_disk (w : world) : fs := delete [] (wFs w).

(** What an output file holds: exp/fcrypt/fcrypt.go:135-141, 211-217, 271-277. *)
Definition armoured (a : bool) (ty data : bytes) : bytes := if a then pem_encode ty [] data else data.
(** exp/fcrypt/fcrypt.go:157-159, 233-235, 293-295: armour is looked for in a text of more
    than ten bytes that starts like it. *)
Definition looks_armoured (s : bytes) : bool := bool_decide (10 < length s)%nat && bool_decide (take 10 s = bs "-----BEGIN").

(** One line of the listing: label, times, signer, key. *)
Record listed := Listed { liLabel : bytes; liTime : Z; liSigned : Z; liSigner : option bytes; liPrint : bytes }.
(** What a command reports besides its files: nothing, or a listing with the time of
    the store, the number of keys and the owner's fingerprint. *)
Inductive report := RNone | RList (time : Z) (count : nat) (print : bytes) (keys : list listed).

Section WithCrypto.
Context `{C : Crypto}.

(** [loadStore], exp/fcrypt/fcrypt.go:53-90. *)
Definition fc_load (path : bytes) (w : world) : res kstore :=
  let flush := negb (w_exists w path) in
  let '(n1, w) := w_now w in
  let '(n2, w) := w_now w in
  let* (r, w) := lift (load_kstore (w_disk w) path true n1 n2 (wRng w)) w in
  let w := set_rng w (snd r) in
  match fst r with
  | None => Fail w
  | Some s =>
      let* (ok, w) := lift (ks_valid s) w in
      if negb ok then Fail w else
      if negb flush then Done s w else
      match w_pass w with
      | (None, w) => Fail w
      | (Some pass, w) =>
          let* (r, w) := lift (ks_lock_with s pass (wRng w)) w in
          let '(ok, s, _, g) := r in
          let w := set_rng w g in
          if negb ok then Fail w else
          let '(n3, w) := w_now w in
          let* (r, w) := lift (ks_unlock n3 s pass) w in
          let '(ok, s) := r in
          if negb ok then Fail w else Done s w
      end
  end.

(** [unlockStore], exp/fcrypt/fcrypt.go:322-345; lines 333-338 cannot be reached with
    an unlocked store. *)
Definition fc_unlock (s : kstore) (w : world) : res kstore :=
  if negb (ksLocked s) then Done s w else
  match w_pass w with
  | (None, w) => Fail w
  | (Some pass, w) =>
      let '(now, w) := w_now w in
      let* (r, w) := lift (ks_unlock now s pass) w in
      let '(ok, s) := r in
      if ok then Done s w else Fail w
  end.

(** [writeStore], exp/fcrypt/fcrypt.go:109-122; DumpKeyStore never returns nil. *)
Definition fc_write (path : bytes) (s : kstore) (w : world) : res kstore :=
  let* (r, w) := lift (dump_keystore s) w in
  let '(ok, w) := w_raw_write w path (fst r) in
  if ok then Done (snd r) w else Fail w.

(** [checkStore], exp/fcrypt/fcrypt.go:92-107. *)
Definition fc_check (o : forders) (s : kstore) (w : world) : res kstore :=
  if ksLocked s then Fail w else
  let* (ok, w) := lift (ks_valid s) w in
  if negb ok then Fail w else
  let* (ok, w) := lift (key_audit (foChains o) (foRounds o) s (foAudit o)) w in
  match ok with
  | None => Spin
  | Some ok => if ok then Done s w else Fail w
  end.

(** A text that is written to the second argument, or an error. *)
Definition put_out (r : option bytes) (path : bytes) (w : world) : res unit :=
  match r with
  | None => Fail w
  | Some out => let '(ok, w) := w_write w path out in if ok then Done tt w else Fail w
  end.

(** [encryptFile], exp/fcrypt/fcrypt.go:124-148. *)
Definition fc_encrypt (s : kstore) (c : fcfg) (w : world) : res kstore :=
  match w_read w (farg 0 c) with
  | (None, w) => Fail w
  | (Some msg, w) =>
      let* (r, w) := lift (ks_encrypt_to s (fLabel c) msg (wRng w)) w in
      let* (_, w) := put_out (armoured (fArmour c) EncryptedType <$> fst r) (farg 1 c) (set_rng w (snd r)) in
      Done s w
  end.

(** [decryptFile], exp/fcrypt/fcrypt.go:150-198: the message, and whether a signature
    is wanted. *)
Definition open_armour (s : bytes) : option (bool * bytes) :=
  if negb (looks_armoured s) then Some (false, s) else
  match pem_decode s with
  | None => None
  | Some (ty, b) =>
      if decide (ty = EncryptedType) then Some (false, b)
      else if decide (ty = SignedAndEncryptedType) then Some (true, b) else None
  end.
Definition fc_decrypt (s : kstore) (c : fcfg) (w : world) : res kstore :=
  match w_read w (farg 0 c) with
  | (None, w) => Fail w
  | (Some msg, w) =>
      match open_armour msg with
      | None => Fail w
      | Some (signed, msg) =>
          let* (out, w) := lift (if signed then ks_decrypt_verify s (fLabel c) msg else ks_decrypt s msg) w in
          match out with
          | None => Fail w
          | Some out =>
              let w := if signed then w_print w (bs "Valid signature." ++ [x0a]) else w in
              let* (_, w) := put_out (Some out) (farg 1 c) w in
              Done s w
          end
      end
  end.

(** [signFile], exp/fcrypt/fcrypt.go:200-220. *)
Definition fc_sign (s : kstore) (c : fcfg) (w : world) : res kstore :=
  match w_read w (farg 0 c) with
  | (None, w) => Fail w
  | (Some msg, w) =>
      let* (sig, w) := lift (ks_sign s msg) w in
      let* (_, w) := put_out (armoured (fArmour c) SignatureType <$> sig) (farg 1 c) w in
      Done s w
  end.

(** The text with armour of one type taken off: exp/fcrypt/fcrypt.go:233-248, 293-308. *)
Definition strip_armour (want s : bytes) : option bytes :=
  if negb (looks_armoured s) then Some s else
  match pem_decode s with
  | None => None
  | Some (ty, b) => if decide (ty = want) then Some b else None
  end.
(** [verifyFile], exp/fcrypt/fcrypt.go:222-256. *)
Definition verdict (ok : bool) : bytes := (if ok then bs "Signature: OK" else bs "Signature: INVALID") ++ [x0a].
Definition fc_verify (s : kstore) (c : fcfg) (w : world) : res kstore :=
  match w_read w (farg 0 c) with
  | (None, w) => Fail w
  | (Some msg, w) =>
      match w_read w (farg 1 c) with
      | (None, w) => Fail w
      | (Some sig, w) =>
          match strip_armour SignatureType sig with
          | None => Fail w
          | Some sig =>
              let* (ok, w) := lift (ks_verify s (fLabel c) msg sig) w in
              Done s (w_print w (verdict ok))
          end
      end
  end.

(** [cryptSignFile], exp/fcrypt/fcrypt.go:258-285: a failing write is no error. *)
Definition fc_cryptsign (s : kstore) (c : fcfg) (w : world) : res kstore :=
  match w_read w (farg 0 c) with
  | (None, w) => Fail w
  | (Some msg, w) =>
      let* (r, w) := lift (ks_encrypt_sign_to s (fLabel c) msg (wRng w)) w in
      let w := set_rng w (snd r) in
      match fst r with
      | None => Fail w
      | Some out =>
          let '(_, w) := w_write w (farg 1 c) (armoured (fArmour c) SignedAndEncryptedType out) in
          Done s w
      end
  end.

(** [decryptSignedFile], exp/fcrypt/fcrypt.go:287-320. *)
Definition fc_decryptsigned (s : kstore) (c : fcfg) (w : world) : res kstore :=
  match w_read w (farg 0 c) with
  | (None, w) => Fail w
  | (Some msg, w) =>
      match strip_armour EncryptedType msg with
      | None => Fail w
      | Some msg =>
          let* (out, w) := lift (ks_decrypt_verify s (fLabel c) msg) w in
          let* (_, w) := put_out out (farg 1 c) w in
          Done s w
      end
  end.

(** [exportSelf], exp/fcrypt/fcrypt.go:347-352. *)
Definition fc_exportself (s : kstore) (c : fcfg) (w : world) : res kstore :=
  let* (_, w) := put_out (ksExport s) (farg 0 c) w in Done s w.
(** [exportVerified], exp/fcrypt/fcrypt.go:354-361. *)
Definition fc_export (o : forders) (s : kstore) (c : fcfg) (w : world) : res kstore :=
  let '(now, w) := w_now w in
  let* (r, w) := lift (export_verified (foChain o) (foRounds o) now s (fLabel c)) w in
  match r with
  | None => Spin
  | Some r => let* (_, w) := put_out r (farg 0 c) w in Done s w
  end.

(** The label, asked for when it is the default: exp/fcrypt/fcrypt.go:369-374, 435-440. *)
Definition ask_label (c : fcfg) (w : world) : option bytes * world :=
  if decide (fLabel c = self) then w_line w else (Some (fLabel c), w).
(** [importVerified], exp/fcrypt/fcrypt.go:363-393. *)
Definition fc_import (o : forders) (s : kstore) (c : fcfg) (w : world) : res kstore :=
  match w_read w (farg 0 c) with
  | (None, w) => Fail w
  | (Some data, w) =>
      match ask_label c w with
      | (None, w) => Fail w
      | (Some label, w) =>
          let '(now, w) := w_now w in
          let* (r, w) := lift (import_verified_key (foOne o) (foTwo o) now s label data) w in
          let '(ok, s) := r in
          if negb ok then Fail w else
          match parse_verified_key data with
          | None => Fail w
          | Some v =>
              let* (l, w) := lift (find_public (foThree o) s (vSigner v)) w in
              match l with
              | None => Fail w
              | Some l => Done s (w_print w (bs "Imported public key signed by '" ++ l ++ bs "'." ++ [x0a]))
              end
          end
      end
  end.

(** The question of [importUntrusted], exp/fcrypt/fcrypt.go:420-433: the end of input
    ends the command with success ([None]); each line takes a round. *)
Fixpoint ask_sure (f : nat) (w : world) : res (option bool) :=
  match f with
  | O => Spin
  | S f =>
      match w_line w with
      | (None, w) => Done None w
      | (Some line, w) =>
          if decide (line = bs "yes") then Done (Some true) w
          else if decide (line = bs "no") then Done (Some false) w else ask_sure f w
      end
  end.
(** [importUntrusted], exp/fcrypt/fcrypt.go:395-446. *)
Definition fingerprint_line (key : bytes) : bytes := bs "Fingerprint: " ++ hex_encode (sha256 key) ++ [x0a].
Definition fc_uimport (f : nat) (s : kstore) (c : fcfg) (w : world) : res kstore :=
  match w_read w (farg 0 c) with
  | (None, w) => Fail w
  | (Some data, w) =>
      match parse_verified_key data with
      | None => Fail w
      | Some v =>
          let* (own, w) := lift (is_self_signed v) w in
          let w := w_print w ((if own then bs "Key is self-signed." else bs "Unrecognised signature.") ++ [x0a] ++ fingerprint_line (vPublic v)) in
          let* (sure, w) := ask_sure f w in
          match sure with
          | None => Done s w
          | Some false => Fail w
          | Some true =>
              match ask_label c w with
              | (None, w) => Fail w
              | (Some label, w) =>
                  let '(n1, w) := w_now w in
                  let '(n2, w) := w_now w in
                  let* (r, w) := lift (ks_add n1 n2 s label (vPublic v) None) w in
                  if fst r then Done (snd r) w else Fail w
              end
          end
      end
  end.

(** [removeKey], exp/fcrypt/fcrypt.go:448-460. *)
Definition fc_remove (s : kstore) (c : fcfg) (w : world) : res kstore :=
  let label := farg 0 c in
  if decide (label = self) then Fail w else
  if negb (ks_has s label) then Fail w else Done (remove_key s label) w.

(** [keyList], exp/fcrypt/fcrypt.go:464-491: a nil record panics. *)
Fixpoint list_loop (s : kstore) (find : nat -> korder) (i : nat) (o : korder) : outcome (list listed) :=
  match o with
  | [] => Ret []
  | (_, None) :: _ => Panic
  | (k, Some v) :: o =>
      let! signer := find_public (find i) s (obytes (krSigner v)) in
      let! rest := list_loop s find (S i) o in
      Ret (Listed k (krTime v) (krSigTime v) signer (hex_encode (sha256 (obytes (krKeys v)))) :: rest)
  end.
Definition fc_list (o : forders) (s : kstore) (w : world) : res (kstore * report) :=
  let* (l, w) := lift (list_loop s (foListFind o) 0 (foList o)) w in
  Done (s, RList (ksTime s) (size (kkeys s)) (hex_encode (sha256 (obytes (ksPub s)))) l) w.

Definition silent (r : res kstore) : res (kstore * report) := let* (s, w) := r in Done (s, RNone) w.
(** [cmd.Run]; [f] bounds the lines read by a question. *)
Definition fc_run (f : nat) (o : forders) (k : fcmd) (s : kstore) (c : fcfg) (w : world) : res (kstore * report) :=
  match k with
  | FEncrypt => silent (fc_encrypt s c w)
  | FCryptSign => silent (fc_cryptsign s c w)
  | FDecrypt => silent (fc_decrypt s c w)
  | FDecryptSigned => silent (fc_decryptsigned s c w)
  | FSign => silent (fc_sign s c w)
  | FVerify => silent (fc_verify s c w)
  | FCheck => silent (fc_check o s w)
  | FExport => silent (fc_export o s c w)
  | FExportSelf => silent (fc_exportself s c w)
  | FImport => silent (fc_import o s c w)
  | FUImport => silent (fc_uimport f s c w)
  | FRemove => silent (fc_remove s c w)
  | FList => fc_list o s w
  end.

(** The flags of [main], exp/fcrypt/fcrypt.go:494-508. *)
Record fflags := FFlags { lCheck : bool; lExport : bool; lImport : bool; lArmour : bool; lDecrypt : bool; lEncrypt : bool;
                          lPath : bytes; lList : bool; lLabel : bytes; lRemove : bool; lSign : bool; lUntrusted : bool; lVerify : bool; lArgs : list bytes }.
(** The command chosen, and whether armour is forced: exp/fcrypt/fcrypt.go:517-548. *)
Definition chosen (l : fflags) : option (fcmd * bool) :=
  if lCheck l then Some (FCheck, lArmour l)
  else if lSign l && lEncrypt l then Some (FCryptSign, true)
  else if lSign l then Some (FSign, lArmour l)
  else if lVerify l then Some (FVerify, lArmour l)
  else if lEncrypt l then Some (FEncrypt, lArmour l)
  else if lDecrypt l then Some (FDecrypt, lArmour l)
  else if lRemove l then Some (FRemove, lArmour l)
  else if lList l then Some (FList, lArmour l)
  else if lExport l && bool_decide (lLabel l = self) then Some (FExportSelf, lArmour l)
  else if lExport l then Some (FExport, lArmour l)
  else if lImport l then Some (if lUntrusted l then FUImport else FImport, lArmour l)
  else None.

Definition with_ks_time (s : kstore) (t : Z) : kstore :=
  KStore (ksVersion s) t (ksKeys s) (ksBlob s) (ksPub s) (ksExport s) (ksPriv s) (ksLocked s).

(** [main], exp/fcrypt/fcrypt.go:493-593: [Fail] is exit status 1. *)
Definition fc_main (f : nat) (o : forders) (l : fflags) (w : world) : res report :=
  match chosen l with
  | None => Done RNone w
  | Some (k, armour) =>
      let c := FCfg (lArgs l) (lLabel l) armour in
      if decide (length (lArgs l) < required_argc k)%nat then Fail w else
      let* (s, w) := fc_load (lPath l) w in
      let must := should_write k || (lCheck l && bool_decide (ksExport s = None)) in
      let* (s, w) := if needs_unlock k then fc_unlock s w else Done s w in
      let* (r, w) := fc_run f o k s c w in
      let '(s, rep) := r in
      let* (s, w) :=
        if must || negb (w_exists w (lPath l)) then
          let '(now, w) := w_now w in
          fc_write (lPath l) (with_ks_time s now) w
        else Done s w in
      let* (_, w) := if needs_unlock k then lift (ks_lock s) w else Done (false, s, None) w in
      Done rep w
  end.
End WithCrypto.

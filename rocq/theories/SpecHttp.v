(** What the key server's answers are, as seen over HTTP. *)
From Verif Require Export SpecKeySrv.
Local Open Scope Z_scope.

Section WithCrypto.
Context `{C : Crypto}.
(** The status and body of the answer to a request that finds the store [s], and the store after it. *)
Inductive http (s : kstore) : request -> Z * bytes -> kstore -> Prop :=
  | h_server d : ksExport s = Some d -> http s GetServer (200, d) s
  | h_server_none : ksExport s = None -> http s GetServer (200, []) s
  | h_own d : ksExport s = Some d -> http s (GetPublic (bs "self")) (200, d) s
  | h_own_none : ksExport s = None -> http s (GetPublic (bs "self")) (200, []) s
  | h_public l r : l <> bs "self" -> krecord s l r -> http s (GetPublic l) (200, certificate_text r) s
  | h_no_public l : l <> bs "self" -> ~ kpresent s l -> http s (GetPublic l) (400, bs "export failed") s
  | h_own_print l : l = bs "self" \/ l = [] -> http s (GetFingerprint l) (200, fingerprint_of (owner s)) s
  | h_print l r : l <> bs "self" -> l <> [] -> krecord s l r -> http s (GetFingerprint l) (200, fingerprint_of (subject r)) s
  | h_no_print l : l <> bs "self" -> l <> [] -> ~ kpresent s l -> http s (GetFingerprint l) (400, bs "fingerprint failed") s
  | h_bad_label l d : l = bs "self" \/ l = [] -> http s (PutKey l d) (400, bs "invalid label") s
  | h_refused l d : l <> bs "self" -> l <> [] -> (distinct_keys s -> forall v, parse_verified_key d = Some v -> ~ importable s l v) ->
      http s (PutKey l d) (400, bs "failed to add public key") s
  | h_added l d v now s' : l <> [] -> parse_verified_key d = Some v -> importable s l v ->
      added s l (KRec l 1 now (Some (vPublic v)) (Some (vSig v)) (Some (vSigner v)) (vTime v) None) s' ->
      http s (PutKey l d) (200, bs "public key added successfully") s'.
End WithCrypto.

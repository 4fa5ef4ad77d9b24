(** Properties C78 and C79: the readers of base64, base32, hexadecimal and PEM, and what
    encoding/json makes of a document. *)
From Verif Require Export PemText GoFacts.
Local Open Scope Z_scope.

(** C78. *)
Theorem C78_base64 :
  forall s b,
    b64_decode s = Some b <-> base64_text s b.
Proof. exact @b64_exact. Qed.
Print Assumptions C78_base64.

Theorem C78_base32 :
  forall s b,
    b32_decode s = Some b <-> base32_text s b.
Proof. exact @b32_exact. Qed.
Print Assumptions C78_base32.

Theorem C78_hex :
  forall s b,
    hex_decode s = Some b <-> hex_text s b.
Proof. exact @hex_exact. Qed.
Print Assumptions C78_hex.

Theorem C78_pem_sound :
  forall s ty b,
    pem_decode s = Some (ty, b) -> exists pre t, s = pre ++ t /\ at_line pre /\ pem_block ty b t.
Proof. exact @pem_sound. Qed.
Print Assumptions C78_pem_sound.

(** The first block is found, save one with nothing between its first line and its last
    and a colon in its type: there the last line is a header. *)
Theorem C78_pem_found :
  forall pre ty w hs body rest b,
    at_line pre -> no_marker pre -> blank_end w -> x0a ∉ ty -> Forall header_line hs -> at_line body ->
    base64_text (no_blanks body) b -> blank_to_end rest -> (body = [] -> hs = [] /\ x3a ∉ ty) ->
    pem_decode (pre ++ bs "-----BEGIN " ++ ty ++ bs "-----" ++ w ++ [x0a] ++ concat hs ++ body ++ bs "-----END " ++ ty ++ bs "-----" ++ rest) = Some (ty, b).
Proof. exact @pem_complete. Qed.
Print Assumptions C78_pem_found.

(** The bits left over need not be zero; breaks may stand anywhere; other texts are refused. *)
Example C78_nonvacuous :
  b64_decode (bs "TW" ++ [x0a] ++ bs "F=") = Some (bs "Ma") /\ b64_decode (bs "TWE=") = Some (bs "Ma") /\ b64_decode (bs "TWF") = None /\
  b64_decode (bs "TQ==") = Some (bs "M") /\ b64_decode (bs "T===") = None /\ b64_decode (bs "TW=E") = None /\
  b32_decode (bs "MZXQ====") = Some (bs "fo") /\ b32_decode (bs "MZXQ===") = None /\ b32_decode (bs "mzxq====") = None /\
  hex_decode (bs "0aFf") = Some [x0a; xff] /\ hex_decode (bs "0aF") = None /\
  pem_decode (bs "junk" ++ [x0a] ++ bs "-----BEGIN A-----  " ++ [x0d; x0a] ++ bs "k: v" ++ [x0a; x0a] ++ bs "TW E=" ++ [x0a] ++ bs "-----END A-----") = Some (bs "A", bs "Ma") /\
  pem_decode (bs "-----BEGIN A-----" ++ [x0a] ++ bs "TWE=" ++ [x0a] ++ bs "-----END B-----") = None.
Proof. vm_compute. repeat split. Qed.

(** C79. *)
Theorem C79_secret_record :
  forall j r,
    dec_rec j = Some r <-> go_srec j r.
Proof. exact @dec_rec_exact. Qed.
Print Assumptions C79_secret_record.

Theorem C79_secret_store :
  forall j s,
    dec_store j = Some s <-> go_sstore j s.
Proof. exact @dec_store_exact. Qed.
Print Assumptions C79_secret_store.

Theorem C79_key_record :
  forall j r,
    dec_krec j = Some r <-> go_krec j r.
Proof. exact @dec_krec_exact. Qed.
Print Assumptions C79_key_record.

Theorem C79_key_store :
  forall j s,
    dec_kstore j = Some s <-> go_kstore_json j s.
Proof. exact @dec_kstore_exact. Qed.
Print Assumptions C79_key_store.

Theorem C79_users :
  forall j s,
    dec_users j = Some s <-> go_users j s.
Proof. exact @dec_users_exact. Qed.
Print Assumptions C79_users.

(** Names in any case, the long s, members given twice, unknown members, a null; and values
    of the wrong kind. *)
Example C79_nonvacuous :
  (j ← parse_json (bs "{""version"":1,""TIMESTAMP"":2,""timestamp"":3,""x"":[],""" ++ [xc5; xbf] ++ bs "tore"":{""a"":null,""b"":{""LABEL"":""b"",""secret"":""AQI="",""Timestamp"":null,""metadata"":{""u"":[1,255]}}}}");
   dec_store j) =
    Some (SStore 1 3 (Some (<[bs "b" := Some (SRec (bs "b") 0 (Some [x01; x02]) (Some {[bs "u" := Some [x01; xff]]}))]> {[bs "a" := None]})) None) /\
  (j ← parse_json (bs "{""Version"":""1""}"); dec_store j) = None /\
  (j ← parse_json (bs "{""Version"":9223372036854775808}"); dec_store j) = None /\
  (j ← parse_json (bs "{""Version"":1.0}"); dec_store j) = None.
Proof. vm_compute. repeat split. Qed.

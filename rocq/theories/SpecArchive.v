(** The archives passcrypt reads, as X.690 and the string types of X.680 have it, and the
    leniency of Go's encoding/asn1 spelled out. *)
From Verif Require Export SpecJson SpecPasscrypt.
Local Open Scope Z_scope.

(** UTF-16, high byte first, written as UTF-8; surrogates without partner become U+FFFD. *)
Definition unit_of (a b : byte) : Z := 256 * bz a + bz b.
Inductive utf16_text : bytes -> bytes -> Prop :=
  | u16_nil : utf16_text [] []
  | u16_unit a b c s v : scalar (unit_of a b) -> rfc3629 (unit_of a b) c -> utf16_text s v -> utf16_text (a :: b :: s) (c ++ v)
  | u16_pair a b a' b' c s v : high_surrogate (unit_of a b) -> low_surrogate (unit_of a' b') ->
      rfc3629 (65536 + 1024 * (unit_of a b - 55296) + (unit_of a' b' - 56320)) c -> utf16_text s v ->
      utf16_text (a :: b :: a' :: b' :: s) (c ++ v)
  | u16_lone a b s v : high_surrogate (unit_of a b) \/ low_surrogate (unit_of a b) ->
      (high_surrogate (unit_of a b) -> forall a' b' s', s = a' :: b' :: s' -> ~ low_surrogate (unit_of a' b')) ->
      utf16_text s v -> utf16_text (a :: b :: s) (xef :: xbf :: xbd :: v).

(** [string_text tag c s]: contents [c] under the tag denote the text [s]. *)
Definition ends_zero (c : bytes) : Prop := exists b, c = b ++ [x00; x00].
Inductive string_text : byte -> bytes -> bytes -> Prop :=
  | st_printable c : Forall (fun b => printable_char b \/ b = x2a \/ b = x26) c -> string_text x13 c c
  | st_utf8 c : utf8_text c -> string_text x0c c c
  | st_numeric c : Forall (fun b => b ∈ bs " 0123456789") c -> string_text x12 c c
  | st_ia5 c : Forall (fun b => bz b < 128) c -> string_text x16 c c
  | st_t61 c : string_text x14 c c
  | st_general c : string_text x1b c c
  | st_bmp c s : ~ ends_zero c -> utf16_text c s -> string_text x1e c s
  | st_bmp_zero c s : utf16_text c s -> string_text x1e (c ++ [x00; x00]) s.

(** An entry: path, mode and contents; what follows in its sequence is ignored. *)
Definition entry_text (x : file) (e : bytes) : Prop :=
  exists tag t p c m d extra, string_text tag t (fPath x) /\ element tag t p /\
    int64 (fMode x) /\ int_contents (fMode x) c /\ element x02 c m /\ element x04 (fData x) d /\ element x30 (p ++ m ++ d ++ extra) e.
(** An archive: the entries, less than two gigabytes of them; what follows is ignored. *)
Definition archive_text (s : bytes) (es : list file) : Prop :=
  exists l e junk, Forall2 entry_text es l /\ zlen (concat l) < 2 ^ 31 /\ element x30 (concat l) e /\ s = e ++ junk.

(** What encoding/json makes of a JSON value for the Go types of the stores: the rules
    of its documentation, as relations. *)
From Verif Require Export SpecCodec KeyStore Login.
Local Open Scope Z_scope.

(** A key selects the field of a name spelt alike but for case; the long s and the
    Kelvin sign are lower-case letters too. *)
Inductive spells : bytes -> bytes -> Prop :=
  | sp_end : spells [] []
  | sp_char c d n k : upper c = upper d -> spells n k -> spells (c :: n) (d :: k)
  | sp_long_s c n k : upper c = x53 -> spells n k -> spells (c :: n) (xc5 :: xbf :: k)
  | sp_kelvin c n k : upper c = x4b -> spells n k -> spells (c :: n) (xe2 :: x84 :: xaa :: k).

(** Into a variable holding [cur]. Integers of 64 bits. *)
Definition int_literal (l : bytes) (v : Z) : Prop :=
  exists d, digit_run d /\ (l = d /\ v = dval d \/ l = x2d :: d /\ v = - dval d).
Inductive go_int (cur : Z) : json -> Z -> Prop :=
  | gi_null : go_int cur JNull cur
  | gi_num l v : int_literal l v -> - 2 ^ 63 <= v < 2 ^ 63 -> go_int cur (JNum l) v.
Inductive go_string (cur : bytes) : json -> bytes -> Prop :=
  | gs_null : go_string cur JNull cur
  | gs_str s : go_string cur (JStr s) s.
(** Byte slices: base64, or an array of numbers, where a null leaves what is there. *)
Inductive go_byte (cur : byte) : json -> byte -> Prop :=
  | gy_null : go_byte cur JNull cur
  | gy_num d b : digit_run d -> dval d = bz b -> go_byte cur (JNum d) b.
Inductive go_array : bytes -> list json -> bytes -> Prop :=
  | ga_end cur : go_array cur [] []
  | ga_more c cur j l b bs : go_byte c j b -> go_array cur l bs -> go_array (c :: cur) (j :: l) (b :: bs)
  | ga_new j l b bs : go_byte x00 j b -> go_array [] l bs -> go_array [] (j :: l) (b :: bs).
Inductive go_bytes (cur : option bytes) : json -> option bytes -> Prop :=
  | gb_null : go_bytes cur JNull None
  | gb_text s b : base64_text s b -> go_bytes cur (JStr s) (Some b)
  | gb_array l b : go_array (default [] cur) l b -> go_bytes cur (JArr l) (Some b).
(** Pointers; maps, to which every member adds one entry, the last of a name counting. *)
Inductive go_pointer {A} (R : json -> A -> Prop) : json -> option A -> Prop :=
  | gp_null : go_pointer R JNull None
  | gp_new j v : j <> JNull -> R j v -> go_pointer R j (Some v).
Inductive go_entries {A} (R : json -> A -> Prop) : list (bytes * json) -> gmap bytes A -> gmap bytes A -> Prop :=
  | ge_end m : go_entries R [] m m
  | ge_more k j l v m m' : R j v -> go_entries R l (<[k := v]> m) m' -> go_entries R ((k, j) :: l) m m'.
Inductive go_map {A} (R : json -> A -> Prop) (cur : option (gmap bytes A)) : json -> option (gmap bytes A) -> Prop :=
  | gm_null : go_map R cur JNull None
  | gm_obj l m : go_entries R l (default ∅ cur) m -> go_map R cur (JObj l) (Some m).
(** Structs: every member in turn sets the field its name selects, others are ignored. *)
Notation rules A := (list (bytes * (json -> A -> A -> Prop))).
Inductive go_members {A} (rs : rules A) : list (bytes * json) -> A -> A -> Prop :=
  | go_end a : go_members rs [] a a
  | go_set k j l n (R : json -> A -> A -> Prop) a a' b : (n, R) ∈ rs -> spells n k -> R j a a' -> go_members rs l a' b -> go_members rs ((k, j) :: l) a b
  | go_skip k j l a b : (forall n R, (n, R) ∈ rs -> ~ spells n k) -> go_members rs l a b -> go_members rs ((k, j) :: l) a b.
Inductive go_struct {A} (rs : rules A) (cur : A) : json -> A -> Prop :=
  | gt_null : go_struct rs cur JNull cur
  | gt_obj l a : go_members rs l cur a -> go_struct rs cur (JObj l) a.

(** The types. *)
Definition srec_rules : rules srec := [
  (bs "Label", fun j r r' => exists v, go_string (rLabel r) j v /\ r' = SRec v (rTime r) (rSecret r) (rMeta r));
  (bs "Timestamp", fun j r r' => exists v, go_int (rTime r) j v /\ r' = SRec (rLabel r) v (rSecret r) (rMeta r));
  (bs "Secret", fun j r r' => exists v, go_bytes (rSecret r) j v /\ r' = SRec (rLabel r) (rTime r) v (rMeta r));
  (bs "Metadata", fun j r r' => exists v, go_map (go_bytes None) (rMeta r) j v /\ r' = SRec (rLabel r) (rTime r) (rSecret r) v)].
Definition go_srec : json -> srec -> Prop := go_struct srec_rules (SRec [] 0 None None).
Definition sstore_rules : rules sstore := [
  (bs "Version", fun j s s' => exists v, go_int (sVersion s) j v /\ s' = SStore v (sTime s) (sRecs s) (sPass s));
  (bs "Timestamp", fun j s s' => exists v, go_int (sTime s) j v /\ s' = SStore (sVersion s) v (sRecs s) (sPass s));
  (bs "Store", fun j s s' => exists v, go_map (go_pointer go_srec) (sRecs s) j v /\ s' = SStore (sVersion s) (sTime s) v (sPass s))].
Definition go_sstore : json -> sstore -> Prop := go_struct sstore_rules (SStore 0 0 None None).

Definition krec_rules : rules krec := [
  (bs "Label", fun j r r' => exists v, go_string (krLabel r) j v /\ r' = KRec v (krVersion r) (krTime r) (krKeys r) (krSig r) (krSigner r) (krSigTime r) (krMeta r));
  (bs "Version", fun j r r' => exists v, go_int (krVersion r) j v /\ r' = KRec (krLabel r) v (krTime r) (krKeys r) (krSig r) (krSigner r) (krSigTime r) (krMeta r));
  (bs "Timestamp", fun j r r' => exists v, go_int (krTime r) j v /\ r' = KRec (krLabel r) (krVersion r) v (krKeys r) (krSig r) (krSigner r) (krSigTime r) (krMeta r));
  (bs "Keys", fun j r r' => exists v, go_bytes (krKeys r) j v /\ r' = KRec (krLabel r) (krVersion r) (krTime r) v (krSig r) (krSigner r) (krSigTime r) (krMeta r));
  (bs "KeySignature", fun j r r' => exists v, go_bytes (krSig r) j v /\ r' = KRec (krLabel r) (krVersion r) (krTime r) (krKeys r) v (krSigner r) (krSigTime r) (krMeta r));
  (bs "KeySigner", fun j r r' => exists v, go_bytes (krSigner r) j v /\ r' = KRec (krLabel r) (krVersion r) (krTime r) (krKeys r) (krSig r) v (krSigTime r) (krMeta r));
  (bs "SignatureTime", fun j r r' => exists v, go_int (krSigTime r) j v /\ r' = KRec (krLabel r) (krVersion r) (krTime r) (krKeys r) (krSig r) (krSigner r) v (krMeta r));
  (bs "Metadata", fun j r r' => exists v, go_map (go_string []) (krMeta r) j v /\ r' = KRec (krLabel r) (krVersion r) (krTime r) (krKeys r) (krSig r) (krSigner r) (krSigTime r) v)].
Definition go_krec : json -> krec -> Prop := go_struct krec_rules (KRec [] 0 0 None None None 0 None).
Definition kstore_rules : rules kstore := [
  (bs "Version", fun j s s' => exists v, go_int (ksVersion s) j v /\ s' = KStore v (ksTime s) (ksKeys s) (ksBlob s) (ksPub s) (ksExport s) (ksPriv s) (ksLocked s));
  (bs "Timestamp", fun j s s' => exists v, go_int (ksTime s) j v /\ s' = KStore (ksVersion s) v (ksKeys s) (ksBlob s) (ksPub s) (ksExport s) (ksPriv s) (ksLocked s));
  (bs "Keys", fun j s s' => exists v, go_map (go_pointer go_krec) (ksKeys s) j v /\ s' = KStore (ksVersion s) (ksTime s) v (ksBlob s) (ksPub s) (ksExport s) (ksPriv s) (ksLocked s));
  (bs "PrivateKey", fun j s s' => exists v, go_bytes (ksBlob s) j v /\ s' = KStore (ksVersion s) (ksTime s) (ksKeys s) v (ksPub s) (ksExport s) (ksPriv s) (ksLocked s));
  (bs "PublicKey", fun j s s' => exists v, go_bytes (ksPub s) j v /\ s' = KStore (ksVersion s) (ksTime s) (ksKeys s) (ksBlob s) v (ksExport s) (ksPriv s) (ksLocked s));
  (bs "ExportKey", fun j s s' => exists v, go_bytes (ksExport s) j v /\ s' = KStore (ksVersion s) (ksTime s) (ksKeys s) (ksBlob s) (ksPub s) v (ksPriv s) (ksLocked s))].
Definition go_kstore_json : json -> kstore -> Prop := go_struct kstore_rules (KStore 0 0 None None None None None false).

Definition lauth_rules : rules lauth := [
  (bs "type", fun j a a' => exists v, go_string (lType a) j v /\ a' = LAuth v (lLabel a) (lLast a) (lSecret a));
  (bs "label", fun j a a' => exists v, go_string (lLabel a) j v /\ a' = LAuth (lType a) v (lLast a) (lSecret a));
  (bs "last", fun j a a' => exists v, go_string (lLast a) j v /\ a' = LAuth (lType a) (lLabel a) v (lSecret a));
  (bs "secret", fun j a a' => exists v, go_bytes (lSecret a) j v /\ a' = LAuth (lType a) (lLabel a) (lLast a) v)].
Definition luser_rules : rules luser := [
  (bs "Name", fun j u u' => exists v, go_string (uName u) j v /\ u' = LUser v (uAuth u));
  (bs "Auth", fun j u u' => exists v, go_pointer (go_struct lauth_rules (default (LAuth [] [] [] None) (uAuth u))) j v /\ u' = LUser (uName u) v)].
Definition go_users : json -> lstore -> Prop := go_map (go_pointer (go_struct luser_rules (LUser [] None))) None.

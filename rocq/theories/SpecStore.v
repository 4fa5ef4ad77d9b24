(** Specification vocabulary for secret stores, written without the model's
    functions. *)
From Verif Require Export SpecSecret SecretStore.
Local Open Scope Z_scope.

(** *** Text: UTF-8 as RFC 3629 defines it, by code points. *)
Definition scalar (r : Z) : Prop := 0 <= r < 1114112 /\ ~ (55296 <= r < 57344).
Definition octets (l : list Z) : bytes := map zb l.
Inductive rfc3629 : Z -> bytes -> Prop :=
  | U1 r : r < 128 -> rfc3629 r (octets [r])
  | U2 r : 128 <= r < 2048 -> rfc3629 r (octets [192 + r / 64; 128 + r mod 64])
  | U3 r : 2048 <= r < 65536 -> rfc3629 r (octets [224 + r / 64 / 64; 128 + r / 64 mod 64; 128 + r mod 64])
  | U4 r : 65536 <= r -> rfc3629 r (octets [240 + r / 64 / 64 / 64; 128 + r / 64 / 64 mod 64; 128 + r / 64 mod 64; 128 + r mod 64]).
Inductive utf8_text : bytes -> Prop :=
  | text_nil : utf8_text []
  | text_cons r c s : scalar r -> rfc3629 r c -> utf8_text s -> utf8_text (c ++ s).

(** Every byte at which no well-formed character starts is replaced by U+FFFD. *)
Inductive made_valid : bytes -> bytes -> Prop :=
  | mv_nil : made_valid [] []
  | mv_char r c s s' : scalar r -> rfc3629 r c -> made_valid s s' -> made_valid (c ++ s) (c ++ s')
  | mv_stray b s s' : (forall r c, scalar r -> rfc3629 r c -> ~ c `prefix_of` b :: s) -> made_valid s s' ->
      made_valid (b :: s) (xef :: xbf :: xbd :: s').

(** *** Stores *)
Definition int64 (z : Z) : Prop := - 2 ^ 63 <= z < 2 ^ 63.
(** The values Go's types allow (timestamps are int64). *)
Definition go_rec (r : srec) : Prop := int64 (rTime r).
Definition go_store (s : sstore) : Prop :=
  int64 (sVersion s) /\ int64 (sTime s) /\
  forall m k r, sRecs s = Some m -> m !! k = Some (Some r) -> go_rec r.
(** A store without nil record pointers, as every store made by this package is. *)
Definition no_nil (s : sstore) : Prop :=
  exists m, sRecs s = Some m /\ forall k, m !! k <> Some None.
(** What the store holds under a label. *)
Definition holds (s : sstore) (k : bytes) (r : srec) : Prop :=
  exists m, sRecs s = Some m /\ m !! k = Some (Some r).
Definition present (s : sstore) (k : bytes) : Prop :=
  exists m v, sRecs s = Some m /\ m !! k = Some v.
(** Every record carries the label it is stored under. *)
Definition well_labelled (s : sstore) : Prop := forall k r, holds s k r -> rLabel r = k.
(** The conditions Valid checks. *)
Definition sound (s : sstore) : Prop :=
  sVersion s = 1 /\ sTime s <> 0 /\ sRecs s <> None /\ sPass s <> None.
(** All labels and metadata keys are UTF-8. *)
Definition text_store (s : sstore) : Prop :=
  forall m k v, sRecs s = Some m -> m !! k = Some v ->
    utf8_text k /\
    forall r, v = Some r -> utf8_text (rLabel r) /\
      forall md k' v', rMeta r = Some md -> md !! k' = Some v' -> utf8_text k'.

(** [m'] is [m] with its keys made valid and its values changed by [f]; of
    several keys that become equal one survives. *)
Definition collapsed {A} (f : A -> A -> Prop) (m m' : gmap bytes A) : Prop :=
  (forall k v, m !! k = Some v -> exists k' v', made_valid k k' /\ m' !! k' = Some v') /\
  (forall k' v', m' !! k' = Some v' -> exists k v, m !! k = Some v /\ made_valid k k' /\ f v v').
Definition opt {A} (f : A -> A -> Prop) (a a' : option A) : Prop :=
  match a, a' with Some x, Some x' => f x x' | None, None => True | _, _ => False end.
Definition reloaded_rec (r r' : srec) : Prop :=
  made_valid (rLabel r) (rLabel r') /\ rTime r' = rTime r /\ rSecret r' = rSecret r /\
  opt (collapsed eq) (rMeta r) (rMeta r').
Definition reloaded (s s' : sstore) : Prop :=
  sVersion s' = sVersion s /\ sTime s' = sTime s /\ sPass s' = sPass s /\
  opt (collapsed (opt reloaded_rec)) (sRecs s) (sRecs s').

(** *** Wiping *)
Definition all_zero (b : bytes) : Prop := forall x, x ∈ b -> x = x00.
(** The same length, every byte zero. *)
Definition wiped (b b' : option bytes) : Prop :=
  match b, b' with
  | Some b, Some b' => length b' = length b /\ all_zero b'
  | None, None => True
  | _, _ => False
  end.
Definition wiped_meta (m m' : option (gmap bytes (option bytes))) : Prop :=
  match m, m' with
  | Some m, Some m' => forall k, match m !! k, m' !! k with
                                 | Some v, Some v' => wiped v v'
                                 | None, None => True
                                 | _, _ => False
                                 end
  | None, None => True
  | _, _ => False
  end.
Definition wiped_rec (r r' : srec) : Prop :=
  rLabel r' = rLabel r /\ rTime r' = rTime r /\ wiped (rSecret r) (rSecret r') /\ wiped_meta (rMeta r) (rMeta r').
Definition wiped_store (s s' : sstore) : Prop :=
  sVersion s' = sVersion s /\ sTime s' = sTime s /\ wiped (sPass s) (sPass s') /\
  match sRecs s, sRecs s' with
  | Some m, Some m' => forall k, match m !! k, m' !! k with
                                 | Some (Some r), Some (Some r') => wiped_rec r r'
                                 | Some None, Some None | None, None => True
                                 | _, _ => False
                                 end
  | None, None => True
  | _, _ => False
  end.

(** *** Histories of a store, against a plain map *)
Inductive sop :=
  | OAdd (now : Z) (name : bytes) (sec : option bytes) (md : option (gmap bytes (option bytes)))
  | OUpdate (now : Z) (name : bytes) (sec : option bytes)
  | ODelete (name : bytes)
  | OPassword (pass : bytes).
Definition about (k : bytes) (o : sop) : Prop :=
  match o with OAdd _ n _ _ | OUpdate _ n _ | ODelete n => n = k | OPassword _ => False end.
Definition plain (M : gmap bytes srec) (o : sop) : gmap bytes srec :=
  match o with
  | OAdd now n sec md => match M !! n with None => <[n := SRec n now sec md]> M | Some _ => M end
  | OUpdate now n sec => match M !! n with None => M | Some r => <[n := SRec (rLabel r) now sec (rMeta r)]> M end
  | ODelete n => delete n M
  | OPassword _ => M
  end.
(** Does the operation report success? *)
Definition plain_ok (M : gmap bytes srec) (o : sop) : Prop :=
  match o with OAdd _ n _ _ => M !! n = None | OUpdate _ n _ => M !! n <> None | _ => True end.
Definition describes (M : gmap bytes srec) (s : sstore) : Prop :=
  exists m, sRecs s = Some m /\ forall k, m !! k = Some <$> M !! k.

(** *** Merging *)
(** The record kept for a label out of one's own and the other store's. *)
Inductive newest : option srec -> option srec -> option srec -> Prop :=
  | new_none b : newest None b b
  | new_own r : newest (Some r) None (Some r)
  | new_keep r r' : rTime r' <= rTime r -> newest (Some r) (Some r') (Some r)
  | new_take r r' : rTime r < rTime r' -> newest (Some r) (Some r') (Some r').
(** The record (if any) that a store holds. *)
Definition at_label (s : sstore) (k : bytes) (o : option srec) : Prop :=
  match o with Some r => holds s k r | None => ~ present s k end.
(** Is the other store's record taken? *)
Definition taken (s o : sstore) (k : bytes) (r : srec) : Prop :=
  holds o k r /\ forall r0, holds s k r0 -> rTime r0 < rTime r.
(** Two stores hold the same records. *)
Definition same_records (s s' : sstore) : Prop := forall k o, at_label s k o <-> at_label s' k o.

(** *** The file format *)
Section WithCrypto.
Context `{C : Crypto}.
Definition mode_key (m : Z) (pass salt : bytes) (key : bytes) : Prop :=
  (m = 0 /\ key = scrypt_raw pass salt (2 ^ 20) 8 2) \/ (m = 1 /\ key = scrypt_raw pass salt (2 ^ 14) 8 1).
(** [data] is a salt and a ciphertext of [text]. *)
Definition store_file (m : Z) (pass text data : bytes) : Prop :=
  exists salt key nonce c, length salt = 32%nat /\ mode_key m pass salt key /\
    sealed_with key nonce text c /\ data = salt ++ c.
End WithCrypto.

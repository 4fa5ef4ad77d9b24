(** Model of common/store/secretstore.go. Values rather than references; what
    is shared between a store and its callers is in StoreHeap.v. No proofs here. *)
From Verif Require Export Secret Json.
Local Open Scope Z_scope.

(** [SecretRecord], common/store/secretstore.go:21-35. nil slices and maps are [None]. *)
Record srec := SRec { rLabel : bytes; rTime : Z; rSecret : option bytes; rMeta : option (gmap bytes (option bytes)) }.
(** [SecretStore], common/store/secretstore.go:55-68; the map holds pointers, nil
    ones included. *)
Record sstore := SStore { sVersion : Z; sTime : Z; sRecs : option (gmap bytes (option srec)); sPass : option bytes }.

Definition SecretStoreVersion : Z := 1.
Definition saltSize : nat := 32.

(** [SecretRecord.Zero], common/store/secretstore.go:40-49 (non-nil receiver). *)
Definition rec_zero (r : srec) : srec :=
  SRec (rLabel r) (rTime r) (option_map zero (rSecret r)) (option_map (fmap (option_map zero)) (rMeta r)).
(** [SecretStore.Zero], common/store/secretstore.go:72-77; a nil record is skipped. *)
Definition store_zero (s : sstore) : sstore :=
  SStore (sVersion s) (sTime s) (option_map (fmap (option_map rec_zero)) (sRecs s)) (option_map zero (sPass s)).

(** [Valid], common/store/secretstore.go:81-99. *)
Definition store_valid (s : sstore) : bool :=
  bool_decide (sVersion s = SecretStoreVersion) && bool_decide (sTime s <> 0)
  && bool_decide (sRecs s <> None) && bool_decide (sPass s <> None).

(** [NewSecretStore], common/store/secretstore.go:102-111, at Unix time [now]. *)
Definition new_store (now : Z) (pass : bytes) : sstore := SStore SecretStoreVersion now (Some ∅) (Some pass).

(** The Store map read ([nil] reads as empty) and assigned (panics on nil). *)
Definition recs (s : sstore) : gmap bytes (option srec) := default ∅ (sRecs s).
Definition set_rec (s : sstore) (k : bytes) (v : option srec) : outcome sstore :=
  match sRecs s with
  | None => Panic
  | Some m => Ret (SStore (sVersion s) (sTime s) (Some (<[k := v]> m)) (sPass s))
  end.
(** Go's [delete(s.Store, k)]: no effect on a nil map. *)
Definition del_rec (s : sstore) (k : bytes) : sstore :=
  SStore (sVersion s) (sTime s) (option_map (delete k) (sRecs s)) (sPass s).

(** [Has], common/store/secretstore.go:114-117. *)
Definition store_has (s : sstore) (name : bytes) : bool := bool_decide (is_Some (recs s !! name)).

(** [AddRecord], common/store/secretstore.go:122-142. The copy made at lines
    128-131 is not used. *)
Definition add_record (now : Z) (s : sstore) (name : bytes) (sec : option bytes) (md : option (gmap bytes (option bytes)))
  : outcome (bool * sstore) :=
  if negb (store_valid s) then Ret (false, s) else
  if store_has s name then Ret (false, s) else
  let! s' := set_rec s name (Some (SRec name now sec md)) in
  Ret (true, s').

(** [UpdateSecret], common/store/secretstore.go:145-153: a nil record panics. *)
Definition update_secret (now : Z) (s : sstore) (name : bytes) (sec : option bytes) : outcome (bool * sstore) :=
  match recs s !! name with
  | None => Ret (false, s)
  | Some None => Panic
  | Some (Some r) => let! s' := set_rec s name (Some (SRec (rLabel r) now sec (rMeta r))) in Ret (true, s')
  end.

(** [SecretRecord.Merge], common/store/secretstore.go:157-163: both pointers are
    dereferenced; true means that the other record was taken. *)
Definition rec_merge (r other : option srec) : outcome (option srec * bool) :=
  match r, other with
  | Some a, Some b => Ret (if decide (rTime a >= rTime b) then (r, false) else (other, true))
  | _, _ => Panic
  end.

(** [SecretStore.Merge], common/store/secretstore.go:168-185: [order] is the order
    in which the loop meets the entries of the other store. *)
Fixpoint merge_loop (order : list (bytes * option srec)) (s : sstore) (acc : list bytes)
  : outcome (sstore * list bytes) :=
  match order with
  | [] => Ret (s, acc)
  | (k, v) :: order =>
      let! vm := match recs s !! k with
                 | None => Ret (v, true)
                 | Some r => rec_merge r v
                 end in
      let! s' := set_rec s k (fst vm) in
      if snd vm then
        match fst vm with
        | None => Panic
        | Some r => merge_loop order s' (acc ++ [rLabel r])
        end
      else merge_loop order s' acc
  end.
Definition store_merge (now : Z) (order : list (bytes * option srec)) (s : sstore) : outcome (sstore * list bytes) :=
  let! r := merge_loop order s [] in
  Ret (SStore (sVersion (fst r)) now (sRecs (fst r)) (sPass (fst r)), snd r).

(** [ChangePassword], common/store/secretstore.go:257-261. *)
Definition change_password (s : sstore) (pass : bytes) : sstore :=
  SStore (sVersion s) (sTime s) (sRecs s) (Some pass).

(** *** JSON *)
(** [json.Marshal(s)] (line 194): exported fields in declaration order, the
    passphrase is unexported. *)
Definition jrec (r : option srec) : json :=
  match r with
  | None => JNull
  | Some r => JObj [(bs "Label", JStr (rLabel r)); (bs "Timestamp", jint (rTime r));
                    (bs "Secret", jbytes (rSecret r)); (bs "Metadata", jmap jbytes (rMeta r))]
  end.
Definition jstore (s : sstore) : json :=
  JObj [(bs "Version", jint (sVersion s)); (bs "Timestamp", jint (sTime s)); (bs "Store", jmap jrec (sRecs s))].

(** [json.Unmarshal(data, &store)] (line 244). *)
Definition rec_field (k : bytes) (j : json) (r : srec) : option srec :=
  if field_is (bs "Label") k then
    match dec_str (rLabel r) j with Some v => Some (SRec v (rTime r) (rSecret r) (rMeta r)) | None => None end
  else if field_is (bs "Timestamp") k then
    match dec_int (rTime r) j with Some v => Some (SRec (rLabel r) v (rSecret r) (rMeta r)) | None => None end
  else if field_is (bs "Secret") k then
    match dec_bytes (rSecret r) j with Some v => Some (SRec (rLabel r) (rTime r) v (rMeta r)) | None => None end
  else if field_is (bs "Metadata") k then
    match dec_map (dec_bytes None) (rMeta r) j with Some v => Some (SRec (rLabel r) (rTime r) (rSecret r) v) | None => None end
  else Some r.
Definition dec_rec (j : json) : option srec := dec_struct rec_field (SRec [] 0 None None) j.
Definition store_field (k : bytes) (j : json) (s : sstore) : option sstore :=
  if field_is (bs "Version") k then
    match dec_int (sVersion s) j with Some v => Some (SStore v (sTime s) (sRecs s) (sPass s)) | None => None end
  else if field_is (bs "Timestamp") k then
    match dec_int (sTime s) j with Some v => Some (SStore (sVersion s) v (sRecs s) (sPass s)) | None => None end
  else if field_is (bs "Store") k then
    match dec_map (dec_ptr dec_rec) (sRecs s) j with Some v => Some (SStore (sVersion s) (sTime s) v (sPass s)) | None => None end
  else Some s.
Definition dec_store (j : json) : option sstore := dec_struct store_field (SStore 0 0 None None) j.

Section WithCrypto.
Context `{C : Crypto}.

(** [MarshalSecretStore], common/store/secretstore.go:189-219: result, store
    afterwards, random source. json.Marshal cannot fail on these types. *)
Definition marshal_store (s : sstore) (m : Z) (g : rng) : outcome (option bytes * sstore * rng) :=
  if negb (store_valid s) then Ret (None, s, g) else
  let out := print (jstore s) in
  match rand saltSize g with
  | (None, g1) => Ret (None, s, g1)
  | (Some salt, g1) =>
      match derive_key_strength (default [] (sPass s)) salt m with
      | None => Ret (None, s, g1)
      | Some key =>
          let! r := encrypt (Some key) out g1 in
          match r with
          | (None, g2) => Ret (None, s, g2)
          | (Some enc, g2) => Ret (Some (salt ++ enc), store_zero s, g2)
          end
      end
  end.

(** [UnmarshalSecretStore], common/store/secretstore.go:223-253. *)
Definition unmarshal_store (input pass : bytes) (m : Z) : outcome (option sstore) :=
  if decide (length input < saltSize)%nat then Ret None else
  let salt := take saltSize input in
  let enc := drop saltSize input in
  match derive_key_strength pass salt m with
  | None => Ret None
  | Some key =>
      let! data := decrypt (Some key) enc in
      match data with
      | None => Ret None
      | Some data =>
          match parse_json data with
          | None => Ret None
          | Some j =>
              match dec_store j with
              | None => Ret None
              | Some s => Ret (Some (SStore (sVersion s) (sTime s) (sRecs s) (Some pass)))
              end
          end
      end
  end.
End WithCrypto.

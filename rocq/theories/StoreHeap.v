(** common/store/secretstore.go once more, with references: byte arrays, metadata
    maps and records live in a heap, slices and pointers refer to them. The store
    struct and its Store map are values here: nothing in the repository shares
    them between two stores. No proofs here. *)
From Verif Require Export SecretStore.
Local Open Scope Z_scope.

(** A slice: array, offset, length (capacities play no role in this file). *)
Record slice := Sl { slArr : nat; slOff : nat; slLen : nat }.
Record hrec := HRec { hLabel : bytes; hTime : Z; hSecret : option slice; hMeta : option nat }.
Record heap := Heap { hArr : gmap nat bytes; hMap : gmap nat (gmap bytes (option slice)); hRec : gmap nat hrec }.
Record hstore := HStore { hVersion : Z; hsTime : Z; hsRecs : option (gmap bytes (option nat)); hPass : option slice }.

(** The bytes a slice shows. *)
Definition readsl (h : heap) (s : slice) : bytes := take (slLen s) (drop (slOff s) (default [] (hArr h !! slArr s))).
Definition set_arr (h : heap) (a : nat) (b : bytes) : heap := Heap (<[a := b]> (hArr h)) (hMap h) (hRec h).
(** [make] and [copy] of a byte slice. *)
Definition alloc (b : bytes) (h : heap) : slice * heap :=
  let a := fresh (dom (hArr h)) in (Sl a 0 (length b), set_arr h a b).
(** [util.Zero] on a slice: the bytes in its window. *)
Definition zero_sl (h : heap) (s : slice) : heap :=
  match hArr h !! slArr s with
  | None => h
  | Some b => set_arr h (slArr s)
                (imap (fun i x => if decide (slOff s <= i < slOff s + slLen s)%nat then bxor x x else x) b)
  end.
Definition osl {A} (f : slice -> A) (o : option slice) : option A := option_map f o.

(** What the store contains in a given heap. *)
Definition meta_view (h : heap) (l : nat) : gmap bytes (option bytes) := osl (readsl h) <$> default ∅ (hMap h !! l).
Definition rec_view (h : heap) (r : hrec) : srec :=
  SRec (hLabel r) (hTime r) (osl (readsl h) (hSecret r)) (option_map (meta_view h) (hMeta r)).
Definition ptr_view (h : heap) (p : option nat) : option srec :=
  match p with None => None | Some l => option_map (rec_view h) (hRec h !! l) end.
Definition view (h : heap) (s : hstore) : sstore :=
  SStore (hVersion s) (hsTime s) (option_map (fmap (ptr_view h)) (hsRecs s)) (osl (readsl h) (hPass s)).

(** The slices [Zero] wipes, common/store/secretstore.go:40-49 and 72-77. *)
Definition meta_slices (h : heap) (l : nat) : list slice := omap (fun kv => snd kv) (map_to_list (default ∅ (hMap h !! l))).
Definition rec_slices (h : heap) (r : hrec) : list slice :=
  option_list (hSecret r) ++ match hMeta r with None => [] | Some l => meta_slices h l end.
Definition store_slices (h : heap) (s : hstore) : list slice :=
  flat_map (fun kv => match snd kv with
                      | None => []
                      | Some l => match hRec h !! l with None => [] | Some r => rec_slices h r end
                      end) (map_to_list (default ∅ (hsRecs s)))
  ++ option_list (hPass s).
(** [Zero], common/store/secretstore.go:72-77: [l] lists these slices in the order
    the (random) map iterations meet them. *)
Definition h_zero (l : list slice) (h : heap) : heap := fold_left zero_sl l h.

(** [NewSecretStore], common/store/secretstore.go:102-111. *)
Definition h_new (now : Z) (pass : slice) (h : heap) : hstore * heap :=
  let '(p, h') := alloc (readsl h pass) h in (HStore SecretStoreVersion now (Some ∅) (Some p), h').

(** [Valid] and [Has]: lines 81-99, 114-117. *)
Definition h_valid (s : hstore) : bool :=
  bool_decide (hVersion s = SecretStoreVersion) && bool_decide (hsTime s <> 0)
  && bool_decide (hsRecs s <> None) && bool_decide (hPass s <> None).
Definition hrecs (s : hstore) : gmap bytes (option nat) := default ∅ (hsRecs s).
Definition h_has (s : hstore) (name : bytes) : bool := bool_decide (is_Some (hrecs s !! name)).
Definition h_set (s : hstore) (k : bytes) (v : option nat) : outcome hstore :=
  match hsRecs s with
  | None => Panic
  | Some m => Ret (HStore (hVersion s) (hsTime s) (Some (<[k := v]> m)) (hPass s))
  end.

(** [AddRecord], common/store/secretstore.go:122-142: the record refers to the
    caller's slice and map ([metadata], the copy, is dropped). *)
Definition h_add (now : Z) (h : heap) (s : hstore) (name : bytes) (sec : option slice) (md : option nat)
  : outcome (bool * hstore * heap) :=
  if negb (h_valid s) then Ret (false, s, h) else
  if h_has s name then Ret (false, s, h) else
  let l := fresh (dom (hRec h)) in
  let! s' := h_set s name (Some l) in
  Ret (true, s', Heap (hArr h) (hMap h) (<[l := HRec name now sec md]> (hRec h))).

(** [UpdateSecret], common/store/secretstore.go:145-153: the record is changed in
    place; the old secret is not wiped. *)
Definition h_update (now : Z) (h : heap) (s : hstore) (name : bytes) (sec : option slice) : outcome (bool * heap) :=
  match hrecs s !! name with
  | None => Ret (false, h)
  | Some None => Panic
  | Some (Some l) =>
      match hRec h !! l with
      | None => Panic
      | Some r => Ret (true, Heap (hArr h) (hMap h) (<[l := HRec (hLabel r) now sec (hMeta r)]> (hRec h)))
      end
  end.

(** [Merge], common/store/secretstore.go:157-185: pointers are copied. *)
Fixpoint h_merge_loop (h : heap) (order : list (bytes * option nat)) (s : hstore) (acc : list bytes)
  : outcome (hstore * list bytes) :=
  match order with
  | [] => Ret (s, acc)
  | (k, v) :: order =>
      let! vm := match hrecs s !! k with
                 | None => Ret (v, true)
                 | Some r =>
                     match ptr_view h r, ptr_view h v with
                     | Some a, Some b => Ret (if decide (rTime a >= rTime b) then (r, false) else (v, true))
                     | _, _ => Panic
                     end
                 end in
      let! s' := h_set s k (fst vm) in
      if snd vm then
        match ptr_view h (fst vm) with
        | None => Panic
        | Some r => h_merge_loop h order s' (acc ++ [rLabel r])
        end
      else h_merge_loop h order s' acc
  end.
Definition h_merge (now : Z) (h : heap) (order : list (bytes * option nat)) (s : hstore) : outcome (hstore * list bytes) :=
  let! r := h_merge_loop h order s [] in
  Ret (HStore (hVersion (fst r)) now (hsRecs (fst r)) (hPass (fst r)), snd r).

(** [ChangePassword], common/store/secretstore.go:257-261. *)
Definition h_change_password (h : heap) (s : hstore) (pass : slice) : hstore * heap :=
  let h1 := match hPass s with None => h | Some p => zero_sl h p end in
  let '(p, h2) := alloc (readsl h1 pass) h1 in
  (HStore (hVersion s) (hsTime s) (hsRecs s) (Some p), h2).

Section WithCrypto.
Context `{C : Crypto}.
(** [MarshalSecretStore], common/store/secretstore.go:189-219: the store is wiped
    (line 215) exactly when a file is returned; [l] as in [h_zero]. *)
Definition h_marshal (l : list slice) (h : heap) (s : hstore) (m : Z) (g : rng) : outcome (option bytes * heap * rng) :=
  let! r := marshal_store (view h s) m g in
  let '(out, _, g') := r in
  Ret (out, match out with None => h | Some _ => h_zero l h end, g').
End WithCrypto.

(** The values json.Unmarshal builds (line 244) are newly allocated. *)
Definition load_opt (b : option bytes) (h : heap) : option slice * heap :=
  match b with None => (None, h) | Some b => let '(s, h') := alloc b h in (Some s, h') end.
Fixpoint load_md (l : list (bytes * option bytes)) (h : heap) : gmap bytes (option slice) * heap :=
  match l with
  | [] => (∅, h)
  | (k, b) :: l =>
      let '(s, h1) := load_opt b h in
      let '(m, h2) := load_md l h1 in
      (<[k := s]> m, h2)
  end.
Definition load_meta (m : option (gmap bytes (option bytes))) (h : heap) : option nat * heap :=
  match m with
  | None => (None, h)
  | Some m =>
      let '(m', h1) := load_md (map_to_list m) h in
      let l := fresh (dom (hMap h1)) in
      (Some l, Heap (hArr h1) (<[l := m']> (hMap h1)) (hRec h1))
  end.
Definition load_rec (r : option srec) (h : heap) : option nat * heap :=
  match r with
  | None => (None, h)
  | Some r =>
      let '(s, h1) := load_opt (rSecret r) h in
      let '(md, h2) := load_meta (rMeta r) h1 in
      let l := fresh (dom (hRec h2)) in
      (Some l, Heap (hArr h2) (hMap h2) (<[l := HRec (rLabel r) (rTime r) s md]> (hRec h2)))
  end.
Fixpoint load_recs (l : list (bytes * option srec)) (h : heap) : gmap bytes (option nat) * heap :=
  match l with
  | [] => (∅, h)
  | (k, r) :: l =>
      let '(p, h1) := load_rec r h in
      let '(m, h2) := load_recs l h1 in
      (<[k := p]> m, h2)
  end.
Definition h_load (s : sstore) (h : heap) : hstore * heap :=
  let '(m, h1) := match sRecs s with
                  | None => (None, h)
                  | Some m => let '(m', h') := load_recs (map_to_list m) h in (Some m', h')
                  end in
  let '(p, h2) := load_opt (sPass s) h1 in
  (HStore (sVersion s) (sTime s) m p, h2).
Section WithCrypto.
Context `{C : Crypto}.
(** [UnmarshalSecretStore], common/store/secretstore.go:223-253: the passphrase is
    copied at lines 250-251. *)
Definition h_unmarshal (h : heap) (input pass : slice) (m : Z) : outcome (option (hstore * heap)) :=
  let! r := unmarshal_store (readsl h input) (readsl h pass) m in
  Ret (option_map (fun s => h_load s h) r).
End WithCrypto.

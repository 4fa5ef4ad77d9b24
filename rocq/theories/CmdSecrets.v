(** Model of cmd/secrets/secrets.go. No proofs here. *)
From Verif Require Export Cmd.
Local Open Scope Z_scope.

(** [config], cmd/secrets/secrets.go:37-42. *)
Record scfg := SCfg { cArgs : list bytes; cClip : bool; cOver : bool; cMeta : bool }.

Section WithCrypto.
Context `{C : Crypto}.

(** [writeStore], cmd/secrets/secrets.go:44-56. *)
Definition write_store (s : sstore) (path : bytes) (m : Z) (w : world) : res unit :=
  let* (r, w) := lift (marshal_store s m (wRng w)) w in
  let '(data, _, g) := r in
  let w := set_rng w g in
  match data with
  | None => Fail w
  | Some d => let '(ok, w) := w_write w path d in if ok : bool then Done tt w else Fail w
  end.

(** [loadStore], cmd/secrets/secrets.go:58-82. *)
Definition load_store (path : bytes) (m : Z) (w : world) : res sstore :=
  match w_pass w with
  | (None, w) => Fail w
  | (Some pass, w) =>
      if w_exists w path then
        match w_read w path with
        | (None, w) => Fail w
        | (Some d, w) =>
            let* (r, w) := lift (unmarshal_store d pass m) w in
            match r with Some s => Done s w | None => Fail w end
        end
      else Fail w
  end.

(** [initStore], cmd/secrets/secrets.go:84-117. *)
Definition init_store (path : bytes) (m : Z) (w : world) : res unit :=
  match w_pass w with
  | (None, w) => Fail w
  | (Some pass, w) =>
      if decide (length pass = 0%nat) then Fail w else
      let '(now, w) := w_now w in
      let* (r, w) := lift (marshal_store (new_store now pass) m (wRng w)) w in
      let '(data, _, g) := r in
      let w := set_rng w g in
      match data with
      | None => Fail w
      | Some d =>
          let '(ok, w) := w_write w path d in
          if ok : bool then
            let* (r, w) := lift (unmarshal_store d pass m) w in
            match r with Some _ => Done tt w | None => Fail w end
          else Fail w
      end
  end.

Definition arg0 (c : scfg) : bytes := nth 0 (cArgs c) [].

(** [showSecret], cmd/secrets/secrets.go:121-142. The lines with time and metadata
    are in Listings.v. *)
Definition show_secret (s : sstore) (c : scfg) (w : world) : res sstore :=
  match recs s !! arg0 c with
  | None => Fail w
  | Some None => Crash w
  | Some (Some r) =>
      let sec := default [] (rSecret r) in
      Done s (w_print w (if cClip c then sec else bs "Secret: " ++ sec ++ [x0a]))
  end.

(** [addSecret] without metadata, cmd/secrets/secrets.go:183-210. *)
Definition add_plain (s : sstore) (c : scfg) (w : world) : res sstore :=
  let label := arg0 c in
  let put (r : option srec) (w : world) : res sstore :=
    match w_pass w with
    | (None, w) => Fail w
    | (Some p, w) =>
        if decide (length p = 0%nat) then Fail w else
        match r with
        | None => Crash w
        | Some r =>
            let '(now, w) := w_now w in
            lift (set_rec s label (Some (SRec (rLabel r) now (Some p) (rMeta r)))) w
        end
    end in
  match recs s !! label with
  | Some r => if cOver c then put r w else Fail w
  | None => put (Some (SRec label 0 None None)) w
  end.

(** The dialogue of [addMeta], cmd/secrets/secrets.go:159-177. *)
Fixpoint meta_loop (n : nat) (md : gmap bytes (option bytes)) (w : world) : res (gmap bytes (option bytes)) :=
  match n with
  | O => Spin
  | S n =>
      match w_line w with
      | (None, w) => Fail w
      | (Some line, w) =>
          if decide (line = []) then Done md w else
          match split_meta line with
          | None => meta_loop n md w
          | Some (k, v) => meta_loop n (<[k := Some v]> md) w
          end
      end
  end.

(** [addMeta], cmd/secrets/secrets.go:144-181. *)
Definition add_meta (n : nat) (s : sstore) (c : scfg) (w : world) : res sstore :=
  let label := arg0 c in
  let* (s, w) := (if store_has s label then Done s w else add_plain s c w) in
  match recs s !! label with
  | Some (Some r) =>
      let* (md, w) := meta_loop n (default ∅ (rMeta r)) w in
      let '(now, w) := w_now w in
      lift (set_rec s label (Some (SRec (rLabel r) now (rSecret r) (Some md)))) w
  | _ => Crash w
  end.
(** [addSecret], cmd/secrets/secrets.go:183-210. *)
Definition add_secret (n : nat) (s : sstore) (c : scfg) (w : world) : res sstore :=
  if cMeta c then add_meta n s c w else add_plain s c w.

(** [list], cmd/secrets/secrets.go:212-233: only prints; the text is in Listings.v. *)
Definition list_secrets (s : sstore) (w : world) : res sstore := Done s w.

(** [chpass], cmd/secrets/secrets.go:235-245. *)
Definition chpass (s : sstore) (w : world) : res sstore :=
  match w_pass w with
  | (None, w) => Fail w
  | (Some p, w) => if decide (length p = 0%nat) then Fail w else Done (change_password s p) w
  end.

(** The dialogue of [removeMeta], cmd/secrets/secrets.go:255-275: a failed read is
    tried again. *)
Fixpoint unmeta_loop (n : nat) (md : option (gmap bytes (option bytes))) (w : world)
  : res (option (gmap bytes (option bytes))) :=
  match n with
  | O => Spin
  | S n =>
      match w_line w with
      | (None, w) => unmeta_loop n md w
      | (Some key, w) => if decide (key = []) then Done md w else unmeta_loop n (option_map (delete key) md) w
      end
  end.
(** [removeMeta], cmd/secrets/secrets.go:247-279. A nil record panics at once. *)
Definition remove_meta (n : nat) (s : sstore) (c : scfg) (w : world) : res sstore :=
  let label := arg0 c in
  match recs s !! label with
  | None => Fail w
  | Some None => Crash w
  | Some (Some r) =>
      let* (md, w) := unmeta_loop n (rMeta r) w in
      let '(now, w) := w_now w in
      lift (set_rec s label (Some (SRec (rLabel r) now (rSecret r) md))) w
  end.
(** [remove], cmd/secrets/secrets.go:281-294. *)
Definition remove_secret (n : nat) (s : sstore) (c : scfg) (w : world) : res sstore :=
  if cMeta c then remove_meta n s c w else
  if store_has s (arg0 c) then Done (del_rec s (arg0 c)) w else Fail w.

(** [multi], cmd/secrets/secrets.go:296-333. *)
Fixpoint multi (n : nat) (s : sstore) (c : scfg) (w : world) : res sstore :=
  match n with
  | O => Spin
  | S n =>
      match w_line w with
      | (None, w) => Fail w
      | (Some name, w) =>
          if decide (name = []) then Done s w else
          let put (r : option srec) (w : world) : res sstore :=
            match w_pass w with
            | (None, w) => Fail w
            | (Some p, w) =>
                if decide (length p = 0%nat) then multi n s c w else
                match r with
                | None => Crash w
                | Some r =>
                    let '(now, w) := w_now w in
                    let* (s, w) := lift (set_rec s name (Some (SRec (rLabel r) now (Some p) (rMeta r)))) w in
                    multi n s c w
                end
            end in
          match recs s !! name with
          | Some r => if cOver c then put r w else multi n s c w
          | None => put (Some (SRec name 0 None None)) w
          end
      end
  end.

(** [merge], cmd/secrets/secrets.go:335-361, for one order of the map (see
    C37_order_irrelevant). *)
Definition merge_other (m : Z) (s : sstore) (c : scfg) (w : world) : res sstore :=
  match w_pass w with
  | (None, w) => Fail w
  | (Some pass, w) =>
      match w_read w (arg0 c) with
      | (None, w) => Fail w
      | (Some d, w) =>
          let* (o, w) := lift (unmarshal_store d pass m) w in
          match o with
          | None => Fail w
          | Some o =>
              let '(now, w) := w_now w in
              let* (r, w) := lift (store_merge now (map_to_list (recs o)) s) w in
              Done (fst r) w
          end
      end
  end.

(** [pemType], [exportStore], [importStore], cmd/secrets/secrets.go:363-393. *)
Definition pemType : bytes := bs "SECRET STORE".
Definition export_store (path out : bytes) (w : world) : res unit :=
  match w_read w path with
  | (None, w) => Fail w
  | (Some d, w) => let '(ok, w) := w_write w out (pem_encode pemType [] d) in if ok : bool then Done tt w else Fail w
  end.
Definition import_store (path inp : bytes) (w : world) : res unit :=
  match w_read w inp with
  | (None, w) => Fail w
  | (Some d, w) =>
      match pem_decode d with
      | None => Fail w
      | Some (ty, b) =>
          if decide (ty = pemType) then let '(ok, w) := w_write w path b in if ok : bool then Done tt w else Fail w
          else Fail w
      end
  end.

(** The commands of [commandSet] and the options, cmd/secrets/secrets.go:27-35 and
    395-411. *)
Inductive scmd := CShow | CStore | CList | CPasswd | CRemove | CMulti | CMerge.
Definition should_write (x : scmd) : bool := match x with CShow | CList => false | _ => true end.
Definition required (x : scmd) : nat := match x with CShow | CStore | CRemove | CMerge => 1 | _ => 0 end.
Definition run (n : nat) (m : Z) (x : scmd) (s : sstore) (c : scfg) (w : world) : res sstore :=
  match x with
  | CShow => show_secret s c w
  | CStore => add_secret n s c w
  | CList => list_secrets s w
  | CPasswd => chpass s w
  | CRemove => remove_secret n s c w
  | CMulti => multi n s c w
  | CMerge => merge_other m s c w
  end.
Record flags := Flags { fInit : bool; fMerge : bool; fExport : bool; fImport : bool; fMulti : bool; fChPass : bool;
  fList : bool; fRemove : bool; fStore : bool }.

(** The end of [main], cmd/secrets/secrets.go:477-504. *)
Definition run_cmd (n : nat) (m : Z) (x : scmd) (path : bytes) (c : scfg) (w : world) : res unit :=
  if decide (length (cArgs c) < required x)%nat then Fail w else
  let* (s, w) := load_store path m w in
  let* (s, w) := run n m x s c w in
  if should_write x then
    let '(now, w) := w_now w in
    write_store (SStore (sVersion s) now (sRecs s) (sPass s)) path m w
  else Done tt w.
(** [main], cmd/secrets/secrets.go:395-504, after the options are parsed; [Done]
    is exit status 0. The option -V is not modelled. *)
Definition secrets_main (n : nat) (m : Z) (fl : flags) (path : bytes) (c : scfg) (w : world) : res unit :=
  if fInit fl then init_store path m w else
  if fChPass fl then run_cmd n m CPasswd path c w else
  if fStore fl then run_cmd n m CStore path c w else
  if fRemove fl then run_cmd n m CRemove path c w else
  if fList fl then run_cmd n m CList path c w else
  if fMulti fl then run_cmd n m CMulti path c w else
  if fMerge fl then run_cmd n m CMerge path c w else
  if fExport fl then export_store path (arg0 c) w else
  if fImport fl then import_store path (arg0 c) w else
  run_cmd n m CShow path c w.
End WithCrypto.

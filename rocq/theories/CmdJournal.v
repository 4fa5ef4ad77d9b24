(** Model of cmd/journal/journal.go, and what it shares with cmd/otpc/otpc.go. No
    proofs here. *)
From Verif Require Export CmdSecrets.
Local Open Scope Z_scope.

Section WithCrypto.
Context `{C : Crypto}.

(** [initStore], cmd/journal/journal.go:79-107 and cmd/otpc/otpc.go:83-111: unlike
    that of secrets, it accepts an empty passphrase. *)
Definition init_any (path : bytes) (m : Z) (w : world) : res unit :=
  match w_pass w with
  | (None, w) => Fail w
  | (Some pass, w) =>
      let '(now, w) := w_now w in
      let* (r, w) := lift (marshal_store (new_store now pass) m (wRng w)) w in
      let '(data, _, g) := r in
      let w := set_rng w g in
      match data with
      | None => Fail w
      | Some d =>
          let '(ok, w) := w_write w path d in
          if ok : bool then
            let* (r, w) := lift (unmarshal_store d pass m) w in
            match r with Some _ => Done tt w | None => Fail w end
          else Fail w
      end
  end.

(** The end of [main], cmd/journal/journal.go:351-371 and
    cmd/otpc/otpc.go:453-473. [body] is the command; it says whether the store is
    to be written. [loadStore] and [writeStore] (journal.go:39-77, otpc.go:43-81)
    are those of secrets. *)
Definition with_store (body : sstore -> world -> res (bool * sstore)) (path : bytes) (m : Z) (w : world) : res unit :=
  let* (s, w) := load_store path m w in
  let* (r, w) := body s w in
  if fst r : bool then
    let '(now, w) := w_now w in
    write_store (SStore (sVersion (snd r)) now (sRecs (snd r)) (sPass (snd r))) path m w
  else Done tt w.
End WithCrypto.

(** The surroundings of journal: [jEdit c] is what the editor leaves of a temporary
    file holding [c] ([None]: no temporary file, or the editor or reading back
    failed); [jFmt] formats a time; [jPerm] is the order in which [range] meets the
    entries of a map. The temporary file itself is in JournalTmp.v. *)
Record jcfg := JCfg { jArgs : list bytes; jEdit : bytes -> option bytes; jFmt : Z -> bytes;
  jPerm : list (bytes * option srec) -> list (bytes * option srec) }.
Definition jarg0 (c : jcfg) : bytes := nth 0 (jArgs c) [].

(** [listEntries], cmd/journal/journal.go:131-149. [sort.Sort] on numbers is any
    sorting function. *)
Fixpoint list_scan (order : list (bytes * option srec)) (ts : list Z) (labels : gmap Z bytes) : outcome (list Z * gmap Z bytes) :=
  match order with
  | [] => Ret (ts, labels)
  | (k, None) :: _ => Panic
  | (k, Some r) :: order => list_scan order (ts ++ [rTime r]) (<[rTime r := k]> labels)
  end.
Definition list_lines (order : list (bytes * option srec)) : outcome (list (Z * bytes)) :=
  let! r := list_scan order [] ∅ in
  Ret (map (fun t => (t, default [] (snd r !! t))) (rev (merge_sort Z.le (fst r)))).
Definition list_entries (s : sstore) (c : jcfg) (w : world) : res (bool * sstore) :=
  let* (ls, w) := lift (list_lines (jPerm c (map_to_list (recs s)))) w in
  Done (false, s) (w_print w (bs "Entries:" ++ [x0a] ++ concat (map (fun l => [x09] ++ jFmt c (fst l) ++ [x09; x09] ++ snd l ++ [x0a]) ls))).

(** [showEntry], cmd/journal/journal.go:151-160. *)
Definition show_entry (s : sstore) (c : jcfg) (w : world) : res (bool * sstore) :=
  match recs s !! jarg0 c with
  | None => Fail w
  | Some None => Crash w
  | Some (Some r) => Done (false, s) (w_print w (default [] (rSecret r) ++ [x0a]))
  end.

(** [editEntry], cmd/journal/journal.go:244-294. *)
Definition edit_entry (s : sstore) (c : jcfg) (w : world) : res (bool * sstore) :=
  match recs s !! jarg0 c with
  | None => Fail w
  | Some None => Crash w
  | Some (Some r) =>
      match jEdit c (default [] (rSecret r)) with
      | None => Fail w
      | Some d =>
          let* (s, w) := lift (set_rec s (jarg0 c) (Some (SRec (rLabel r) (rTime r) (Some d) (rMeta r)))) w in
          Done (true, s) w
      end
  end.

(** [newEntry], cmd/journal/journal.go:202-242, and the end of [writeNew],
    cmd/journal/journal.go:187-200. *)
Definition new_entry (s : sstore) (title : bytes) (c : jcfg) (w : world) : res (bool * sstore) :=
  let '(t, w) := w_now w in
  match jEdit c (title ++ [x0a] ++ jFmt c t ++ [x0a; x0a] ++ bs "-----" ++ [x0a]) with
  | None => Fail w
  | Some d =>
      let '(now, w) := w_now w in
      let* (s, w) := lift (set_rec s title (Some (SRec title now (Some d) None))) w in
      Done (true, s) w
  end.
(** [writeNew], cmd/journal/journal.go:162-200. *)
Definition write_new (s : sstore) (c : jcfg) (w : world) : res (bool * sstore) :=
  let title := trim_space (jarg0 c) in
  if store_has s title then
    match w_line w with
    | (None, w) => Fail w
    | (Some answer, w) =>
        if bool_decide (to_lower answer = bs "y") || bool_decide (to_lower answer = bs "yes") then edit_entry s c w else
        match w_line w with
        | (None, w) => Fail w
        | (Some t, w) => if decide (t = []) then Fail w else new_entry s t c w
        end
    end
  else new_entry s title c w.

(** [commandSet], cmd/journal/journal.go:118-123. *)
Inductive jcmd := JEdit | JList | JShow | JWrite.
Definition jrequired (x : jcmd) : nat := match x with JList => 0 | _ => 1 end.
Definition jrun (x : jcmd) : sstore -> jcfg -> world -> res (bool * sstore) :=
  match x with JEdit => edit_entry | JList => list_entries | JShow => show_entry | JWrite => write_new end.

Section WithCrypto.
Context `{C : Crypto}.
Definition journal_run (m : Z) (x : jcmd) (path : bytes) (c : jcfg) (w : world) : res unit :=
  if decide (length (jArgs c) < jrequired x)%nat then Fail w else with_store (fun s w => jrun x s c w) path m w.
(** [main], cmd/journal/journal.go:296-371, after the options are parsed. *)
Definition journal_main (m : Z) (doInit doEdit doList doWrite : bool) (path : bytes) (c : jcfg) (w : world) : res unit :=
  if doInit then init_any path m w else
  if doEdit then journal_run m JEdit path c w else
  if doList then journal_run m JList path c w else
  if doWrite then journal_run m JWrite path c w else journal_run m JShow path c w.
End WithCrypto.

(** Model of the temporary file of cmd/journal: what the commands of CmdJournal.v do to
    the files while the editor runs. No proofs here. *)
From Verif Require Export CmdJournal.
Local Open Scope Z_scope.

(** What the system and the editor do: the name [ioutil.TempFile] picks ([None]: an
    error; O_EXCL: it names no file), what becomes of the write, the editor as named by
    the user, what running a command line does (did it end with status zero? the files
    afterwards), whether the file can be read and removed (first and second call), and the
    reason given if not. *)
Record tmpenv := TmpEnv {
  eName : option bytes; eWrite : wfate; eProg : bytes; eRun : list bytes -> fs -> bool * fs;
  eRead : bool; eRm1 : bool; eRm2 : bool; eReason : bytes }.

(** [os.Remove] of a file. *)
Definition os_remove (can : bool) (p : bytes) (f : fs) : bool * fs :=
  match f !! p with Some _ => if can then (true, delete p f) else (false, f) | None => (false, f) end.
(** [strings.Split(s, " ")]. *)
Fixpoint split_blank (s : bytes) : list bytes :=
  match s with
  | [] => [[]]
  | c :: s => if decide (c = x20) then [] :: split_blank s else match split_blank s with [] => [[c]] | w :: ws => (c :: w) :: ws end
  end.
(** cmd/journal/journal.go:21 and 224-230, 269-276. *)
Definition default_editor : bytes := bs "vim -f -n -i NONE +star".
Definition editor_args (prog file : bytes) : list bytes := split_blank (if decide (prog = []) then default_editor else prog) ++ [file].
(** The message of cmd/journal/journal.go:217-220 and 262-265. *)
Definition warning (file reason : bytes) : bytes :=
  bs "*** WARNING ***" ++ [x0a] ++ bs "FAILED TO REMOVE TEMPORARY FILE " ++ file ++ [x0a] ++
  bs "You should os_remove this yourself." ++ [x0a; x0a] ++ bs "The reason: " ++ reason ++ [x0a].

(** cmd/journal/journal.go:203-241 and 250-287: an empty file is made, written (the
    error is not looked at), edited, read back, and removed twice, by the deferred calls in
    reverse order, of which the first warns. The result, the files, and the warning. *)
Definition session (E : tmpenv) (content : bytes) (f : fs) : option bytes * fs * bytes :=
  match eName E with
  | None => (None, f, [])
  | Some p =>
      let '(_, f) := write_file (eWrite E) (<[p := []]> f) p content in
      let '(ok, f) := eRun E (editor_args (eProg E) p) f in
      let r := if ok && eRead E then f !! p else None in
      let '(removed, f) := os_remove (eRm1 E) p f in
      let '(_, f) := os_remove (eRm2 E) p f in
      (r, f, if removed : bool then [] else warning p (eReason E))
  end.
(** The same in the world of a command. *)
Definition w_session (E : tmpenv) (content : bytes) (w : world) : option bytes * world :=
  let '(r, f, t) := session E content (wFs w) in (r, w_print (set_fs w f) t).
(** What a process killed on the way may leave behind; [mid] are the states the editor
    goes through. *)
Definition session_states (E : tmpenv) (mid : fs -> list fs) (content : bytes) (f : fs) : list fs :=
  match eName E with
  | None => [f]
  | Some p =>
      let f0 := <[p := []]> f in
      let f1 := snd (write_file (eWrite E) f0 p content) in
      let f2 := snd (eRun E (editor_args (eProg E) p) f1) in
      let f3 := snd (os_remove (eRm1 E) p f2) in
      [f; f0] ++ match eWrite E with WFailOpen => [] | WOk => write_states f0 p content | WPartial n => write_states f0 p (take n content) end ++
      mid f1 ++ [f2; f3; snd (os_remove (eRm2 E) p f3)]
  end.

(** [editEntry], cmd/journal/journal.go:244-294; a nil record panics with the first
    of the two removals pending. *)
Definition edit_entry_tmp (E : tmpenv) (s : sstore) (c : jcfg) (w : world) : res (bool * sstore) :=
  match recs s !! jarg0 c with
  | None => Fail w
  | Some None =>
      match eName E with
      | None => Fail w
      | Some p => Crash (set_fs w (snd (os_remove (eRm1 E) p (<[p := []]> (wFs w)))))
      end
  | Some (Some r) =>
      match w_session E (default [] (rSecret r)) w with
      | (None, w) => Fail w
      | (Some d, w) =>
          let* (s, w) := lift (set_rec s (jarg0 c) (Some (SRec (rLabel r) (rTime r) (Some d) (rMeta r)))) w in
          Done (true, s) w
      end
  end.
(** [newEntry], cmd/journal/journal.go:202-242, and the end of [writeNew],
    cmd/journal/journal.go:187-200. *)
Definition new_entry_tmp (E : tmpenv) (s : sstore) (title : bytes) (c : jcfg) (w : world) : res (bool * sstore) :=
  let '(t, w) := w_now w in
  match w_session E (title ++ [x0a] ++ jFmt c t ++ [x0a; x0a] ++ bs "-----" ++ [x0a]) w with
  | (None, w) => Fail w
  | (Some d, w) =>
      let '(now, w) := w_now w in
      let* (s, w) := lift (set_rec s title (Some (SRec title now (Some d) None))) w in
      Done (true, s) w
  end.
(** [writeNew], cmd/journal/journal.go:162-200. *)
Definition write_new_tmp (E : tmpenv) (s : sstore) (c : jcfg) (w : world) : res (bool * sstore) :=
  let title := trim_space (jarg0 c) in
  if store_has s title then
    match w_line w with
    | (None, w) => Fail w
    | (Some answer, w) =>
        if bool_decide (to_lower answer = bs "y") || bool_decide (to_lower answer = bs "yes") then edit_entry_tmp E s c w else
        match w_line w with
        | (None, w) => Fail w
        | (Some t, w) => if decide (t = []) then Fail w else new_entry_tmp E s t c w
        end
    end
  else new_entry_tmp E s title c w.
(** [commandSet], cmd/journal/journal.go:118-123, and the end of [main],
    cmd/journal/journal.go:330-371. *)
Definition jrun_tmp (E : tmpenv) (x : jcmd) : sstore -> jcfg -> world -> res (bool * sstore) :=
  match x with JEdit => edit_entry_tmp E | JList => list_entries | JShow => show_entry | JWrite => write_new_tmp E end.
Definition journal_run_tmp `{C : Crypto} (E : tmpenv) (m : Z) (x : jcmd) (path : bytes) (c : jcfg) (w : world) : res unit :=
  if decide (length (jArgs c) < jrequired x)%nat then Fail w else with_store (fun s w => jrun_tmp E x s c w) path m w.

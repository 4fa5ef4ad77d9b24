(** Model of cmd/secretscli (commands.go and secretscli.go). No proofs here. *)
From Verif Require Export Display.
Local Open Scope Z_scope.

(** [strings.Fields]: [cur] is the word being read. White space is found as in
    [trim_space]. *)
Fixpoint fields_from (f : nat) (cur s : bytes) : list bytes :=
  match f with
  | O => []
  | S f =>
      match lead_space s with
      | Some w => (if decide (cur = []) then [] else [cur]) ++ fields_from f [] (drop (length w) s)
      | None =>
          match s with
          | [] => if decide (cur = []) then [] else [cur]
          | b :: s => fields_from f (cur ++ [b]) s
          end
      end
  end.
Definition str_fields (s : bytes) : list bytes := fields_from (S (length s)) [] s.

(** [session], cmd/secretscli/secretscli.go:112-118; Path and Scrypt are
    parameters, Locked is never used. *)
Record sess := Sess { vStore : sstore; vDirty : bool }.
Definition set_store (v : sess) (s : sstore) : sess := Sess s (vDirty v).

(** How a command ends: it returns (is the error nil?), it panics, or it exits. *)
Inductive cres := CRet (ok : bool) (v : sess) (w : world) | CPanic (v : sess) (w : world) | CExit (v : sess) (w : world).

(** Lower-case hexadecimal, fmt's %x. *)
Definition hexdigit (n : Z) : byte := if decide (n < 10) then zb (48 + n) else zb (87 + n).
Definition hex (b : bytes) : bytes := concat (map (fun x => [hexdigit (bz x / 16); hexdigit (bz x mod 16)]) b).

Section WithCrypto.
Context `{C : Crypto} `{T : Tty}.

(** [writeStore], cmd/secretscli/secretscli.go:120-141. Marshalling wipes the
    store of the session. *)
Definition write_session (path : bytes) (m : Z) (v : sess) (w : world) : cres :=
  if negb (vDirty v) then CRet true v w else
  match marshal_store (vStore v) m (wRng w) with
  | Panic => CPanic v w
  | Ret (None, s, g) => CRet false (set_store v s) (set_rng w g)
  | Ret (Some d, s, g) =>
      let '(ok, w) := w_write (set_rng w g) path d in
      CRet ok (Sess s (if ok then false else vDirty v)) w
  end.
(** [shutdown], cmd/secretscli/secretscli.go:143-148. *)
Definition shutdown (path : bytes) (m : Z) (v : sess) (w : world) : cres :=
  match write_session path m v w with
  | CRet ok v w => CRet ok (set_store v (store_zero (vStore v))) w
  | r => r
  end.

(** [passwd], cmd/secretscli/commands.go:50-70. *)
Definition cli_passwd (v : sess) (w : world) : cres :=
  match w_pass w with
  | (None, w) => CRet false v w
  | (Some p, w) =>
      match w_pass w with
      | (None, w) => CRet false v w
      | (Some q, w) => if decide (q = p) then CRet true (set_store v (change_password (vStore v) p)) w else CRet false v w
      end
  end.

(** The line of [showSecret] and [showSecretHex] for one label,
    cmd/secretscli/commands.go:130-176. *)
Fixpoint cli_show (hx many : bool) (s : sstore) (args : list bytes) (v : sess) (w : world) : cres :=
  match args with
  | [] => CRet true v w
  | l :: args =>
      match recs s !! l with
      | None => cli_show hx many s args v (w_print w (not_found l))
      | Some None => CPanic v w
      | Some (Some r) =>
          let sec := default [] (rSecret r) in
          cli_show hx many s args v
            (w_print w ((if many then l ++ bs ": " else []) ++ (if hx then hex sec else sec) ++ [x0a]))
      end
  end.
Definition show_cmd (hx : bool) (args : list bytes) (v : sess) (w : world) : cres :=
  if decide (args = []) then CRet false v w else cli_show hx (bool_decide (1 < length args)%nat) (vStore v) args v w.
(** [readMeta], cmd/secretscli/commands.go:180-204. A label with no record behind it
    is printed before the panic. *)
Fixpoint read_metas (s : sstore) (args : list bytes) (v : sess) (w : world) : cres :=
  match args with
  | [] => CRet true v w
  | l :: args =>
      match recs s !! l with
      | None => read_metas s args v (w_print w (not_found l))
      | Some None => CPanic v (w_print w (bs "Record: " ++ l ++ [nl]))
      | Some (Some r) =>
          let w := w_print w (meta_head l r) in
          read_metas s args v (w_print w (meta_lines (wOut w) r))
      end
  end.
Definition read_meta (args : list bytes) (v : sess) (w : world) : cres :=
  if decide (args = []) then CRet false v w else read_metas (vStore v) args v w.

(** The dialogue of [writeMeta], cmd/secretscli/commands.go:225-247; the flag says
    whether it ended with an empty line. The map is changed in place. *)
Fixpoint wmeta_loop (n : nat) (md : gmap bytes (option bytes)) (w : world) : gmap bytes (option bytes) * bool * world :=
  match n with
  | O => (md, false, w)
  | S n =>
      match w_line w with
      | (None, w) => (md, false, w)
      | (Some line, w) =>
          if decide (line = []) then (md, true, w) else
          match split_meta line with
          | None => wmeta_loop n md w
          | Some (k, x) => wmeta_loop n (<[k := Some x]> md) w
          end
      end
  end.
(** [writeMeta], cmd/secretscli/commands.go:206-252. *)
Definition write_meta (args : list bytes) (v : sess) (w : world) : cres :=
  match args with
  | [label] =>
      match recs (vStore v) !! label with
      | None => CRet false v w
      | Some None => CPanic v w
      | Some (Some r) =>
          let '(md, ended, w) := wmeta_loop (S (pending (wIn w))) (default ∅ (rMeta r)) w in
          let s := vStore v in
          if ended : bool then
            let '(now, w) := w_now w in
            match set_rec (SStore (sVersion s) now (sRecs s) (sPass s)) label (Some (SRec (rLabel r) now (rSecret r) (Some md))) with
            | Ret s => CRet true (Sess s true) w
            | Panic => CPanic v w
            end
          else
            match set_rec s label (Some (SRec (rLabel r) (rTime r) (rSecret r) (Some md))) with
            | Ret s => CRet false (set_store v s) w
            | Panic => CPanic v w
            end
      end
  | _ => CRet false v w
  end.

(** [storeSingleSecret], cmd/secretscli/commands.go:266-296. A new record is given
    no label. *)
Definition store_single (label : bytes) (v : sess) (w : world) : cres :=
  let s := vStore v in
  let put (r : option srec) (w : world) : cres :=
    match w_pass w with
    | (None, w) => CRet false v w
    | (Some p, w) =>
        if decide (length p = 0%nat) then CRet false v w else
        match r with
        | None => CPanic v w
        | Some r =>
            let '(now, w) := w_now w in
            let s := SStore (sVersion s) now (sRecs s) (sPass s) in
            match set_rec s label (Some (SRec (rLabel r) now (Some p) (rMeta r))) with
            | Ret s => CRet true (Sess s true) w
            | Panic => CPanic (set_store v s) w
            end
        end
    end in
  match recs s !! label with
  | Some r =>
      match w_line w with
      | (None, w) => CRet false v w
      | (Some answer, w) =>
          if bool_decide (to_lower answer = bs "y") || bool_decide (to_lower answer = bs "yes") then put r w else CRet true v w
      end
  | None => put (Some (SRec [] 0 None None)) w
  end.
(** [storeSecret], cmd/secretscli/commands.go:298-315; [first] holds for the first
    label. *)
Fixpoint store_labels (path : bytes) (m : Z) (first : bool) (args : list bytes) (v : sess) (w : world) : cres :=
  match args with
  | [] => CRet true v w
  | l :: args =>
      match store_single l v w with
      | CRet true v w => store_labels path m false args v w
      | CRet false v w =>
          if first then CRet false v w else
          match write_session path m v w with CRet _ v w => CRet false v w | r => r end
      | r => r
      end
  end.
Definition store_cmd (path : bytes) (m : Z) (args : list bytes) (v : sess) (w : world) : cres :=
  if decide (args = []) then CRet false v w else store_labels path m true args v w.
(** [cmdWriteStore], cmd/secretscli/commands.go:254-264. *)
Definition write_cmd (path : bytes) (m : Z) (args : list bytes) (v : sess) (w : world) : cres :=
  if decide (args = []) then write_session path m v w else CRet false v w.

(** [dispatch], cmd/secretscli/commands.go:19-31, and [processCommands],
    cmd/secretscli/secretscli.go:56-77, without the hand-off. Of what is printed,
    prompts, notices of success and what goes to standard error are left out. *)
Definition command (path : bytes) (m : Z) (line : bytes) (v : sess) (w : world) : cres :=
  match str_fields line with
  | [] => CRet true v w
  | cmd :: args =>
      if decide (cmd = bs "clear") then CRet true v (w_print w clear_text) else
      if decide (cmd = bs "help") then match help_text args with Some t => CRet true v (w_print w t) | None => CRet false v w end else
      if decide (cmd = bs "list") then CRet true v (w_print w (list_text (vStore v) args (wOut w))) else
      if decide (cmd = bs "quit") then match shutdown path m v w with CRet _ v w => CExit v w | r => r end else
      if decide (cmd = bs "passwd") then cli_passwd v w else
      if decide (cmd = bs "rmeta") then read_meta args v w else
      if decide (cmd = bs "show") then show_cmd false args v w else
      if decide (cmd = bs "showhex") then show_cmd true args v w else
      if decide (cmd = bs "store") then store_cmd path m args v w else
      if decide (cmd = bs "wmeta") then write_meta args v w else
      if decide (cmd = bs "write") then write_cmd path m args v w else
      CRet false v w
  end.
End WithCrypto.

(** *** Reader, loop and timer, cmd/secretscli/secretscli.go:24-110 and 188-190 *)
(** The reader goroutine: reading a line (35); holding one to send (47); waiting
    for the go-ahead (48); returned. *)
Inductive reader := RRead | RSend (line : bytes) | RWait | RDone.
(** The loop: in the select (92); running a command (98); about to send the
    go-ahead (59, 76); returned; and the process having exited. *)
Inductive looper := LSelect | LRun (line : bytes) | LReply | LReturned | LExited.
(** [tInClosed], [tPrClosed]: are the channels closed. [tDone]: the lines whose
    commands were run, for the statements only. *)
Record cli := Cli { tRead : reader; tLoop : looper; tInClosed : bool; tPrClosed : bool;
  tSess : sess; tWorld : world; tDone : list bytes }.
Definition set_in (w : world) (i : stdin) : world := World (wFs w) i (wPw w) (wClk w) (wRng w) (wFate w) (wOut w).

Section WithCrypto.
Context `{C : Crypto} `{T : Tty}.
(** One step. The timer of the select may fire whenever the loop is in it. *)
Inductive cli_step (path : bytes) (m : Z) : cli -> cli -> Prop :=
  (* the reader *)
  | st_blank q ic pc v w d i : q <> LExited -> read_line (wIn w) = (Some [], i) ->
      cli_step path m (Cli RRead q ic pc v w d) (Cli RRead q ic pc v (set_in w i) d)
  | st_line q ic pc v w d i l : q <> LExited -> read_line (wIn w) = (Some l, i) -> l <> [] ->
      cli_step path m (Cli RRead q ic pc v w d) (Cli (RSend l) q ic pc v (set_in w i) d)
  | st_eof q ic pc v w d i : q <> LExited -> read_line (wIn w) = (None, i) ->
      cli_step path m (Cli RRead q ic pc v w d) (Cli RDone q true pc v (set_in w i) d)
  | st_closed q ic v w d : q <> LExited ->
      cli_step path m (Cli RWait q ic true v w d) (Cli RDone q ic true v w d)
  (* reader and loop together: a line is handed over; the go-ahead is given *)
  | st_quit ic pc v w d :
      cli_step path m (Cli (RSend (bs "quit")) LSelect ic pc v w d) (Cli RWait LReturned ic pc v w d)
  | st_hand l ic pc v w d : l <> bs "quit" ->
      cli_step path m (Cli (RSend l) LSelect ic pc v w d) (Cli RWait (LRun l) ic pc v w d)
  | st_reply ic pc v w d :
      cli_step path m (Cli RWait LReply ic pc v w d) (Cli RRead LSelect ic pc v w d)
  (* the loop *)
  | st_in_closed r pc v w d :
      cli_step path m (Cli r LSelect true pc v w d) (Cli r LReturned true pc v w d)
  | st_timeout r ic v w d :
      cli_step path m (Cli r LSelect ic false v w d) (Cli r LReturned ic true v w d)
  | st_run r l ic pc v w d ok v' w' : command path m l v w = CRet ok v' w' ->
      cli_step path m (Cli r (LRun l) ic pc v w d) (Cli r LReply ic pc v' w' (d ++ [l]))
  | st_panic r l ic pc v w d v' w' : command path m l v w = CPanic v' w' ->
      cli_step path m (Cli r (LRun l) ic pc v w d) (Cli r LReturned ic pc v' w' (d ++ [l]))
  | st_exit r l ic pc v w d v' w' : command path m l v w = CExit v' w' ->
      cli_step path m (Cli r (LRun l) ic pc v w d) (Cli r LExited ic pc v' w' (d ++ [l]))
  (* main's deferred shutdown *)
  | st_shutdown r ic pc v w d ok v' w' : shutdown path m v w = CRet ok v' w' ->
      cli_step path m (Cli r LReturned ic pc v w d) (Cli r LExited ic pc v' w' d).

(** [main], cmd/secretscli/secretscli.go:168-190, up to the loop. *)
Definition cli_open (path : bytes) (m : Z) (w : world) : option (sess * world) :=
  match w_pass w with
  | (None, _) => None
  | (Some pass, w) =>
      match w_raw_read w path with
      | None => None
      | Some d =>
          match unmarshal_store d pass m with
          | Ret (Some s) => Some (Sess s false, w)
          | _ => None
          end
      end
  end.
Definition cli_start (v : sess) (w : world) : cli := Cli RRead LSelect false false v w [].
End WithCrypto.

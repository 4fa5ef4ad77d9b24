(** Model of exp/keysrv/keysrv.go. The goroutines are the threads of a transition
    system. Messages to the log are left out, as are TLS and the parts of HTTP other
    than the status and the body of an answer. No proofs here. *)
From Verif Require Export KeyStore SpecKeyStore Text.
Local Open Scope Z_scope.

(** [command], exp/keysrv/keysrv.go:23-27: the operation and the two entries of the
    data map that are ever set; a missing entry reads as "". *)
Inductive op := Public | Fingerprint | Upload | Audit.
Record command := Cmd { cOp : op; cLabel : bytes; cData : bytes }.
(** [response], exp/keysrv/keysrv.go:29-32; an error is its text. *)
Record response := Resp { aOut : option bytes; aErr : option bytes }.
(** What is not fixed by the program: the orders of the searches, those of the audit,
    and how many rounds of the audit are run. *)
Record choices := Ch { chOne : korder; chTwo : korder; chOs : nat -> nat -> korder; chLabels : korder; chRounds : nat }.
Definition fair_choices (s : kstore) (ch : choices) : Prop :=
  an_order s (chOne ch) /\ an_order s (chTwo ch) /\ (forall i, orders s (chOs ch i)) /\ an_order s (chLabels ch).

Section WithCrypto.
Context `{C : Crypto}.

(** [checkUpload], exp/keysrv/keysrv.go:102-117. *)
Definition check_upload (ch : choices) (now : Z) (s : kstore) (c : command) : outcome (response * kstore) :=
  if decide (cLabel c = self \/ cLabel c = []) then Ret (Resp None (Some (bs "invalid label")), s) else
  let! r := import_verified_key (chOne ch) (chTwo ch) now s (cLabel c) (cData c) in
  let '(ok, s) := r in
  Ret (if ok then Resp (Some (bs "public key added successfully")) None else Resp None (Some (bs "failed to add public key")), s).

(** The error set before the lookups, exp/keysrv/keysrv.go:125-133, 154-163. *)
Definition early_error (s : kstore) (label : bytes) : option bytes :=
  if ks_has s label then if decide (label = []) then Some (bs "missing label") else None else Some (bs "export failed").
(** [process], exp/keysrv/keysrv.go:119-194. [None]: an audit is still running. The
    default case is left out: only the four operations are ever sent. *)
Definition process (ch : choices) (now : Z) (s : kstore) (c : command) : outcome (option (response * kstore)) :=
  match cOp c with
  | Public =>
      Ret (Some (
        if decide (cLabel c = self) then Resp (ksExport s) (early_error s (cLabel c)) else
        match kkeys s !! cLabel c with
        | Some (Some r) => Resp (Some (serialise (VKey (obytes (krKeys r)) (obytes (krSigner r)) (krSigTime r) (obytes (krSig r))))) None
        | _ => Resp None (Some (bs "export failed"))
        end, s))
  | Fingerprint =>
      Ret (Some (
        if decide (cLabel c = self) then Resp (Some (hex_encode (sha256 (obytes (ksPub s))))) (early_error s (cLabel c)) else
        match kkeys s !! cLabel c with
        | Some (Some r) => Resp (Some (hex_encode (sha256 (obytes (krKeys r))))) (early_error s (cLabel c))
        | _ => Resp None (Some (bs "fingerprint failed"))
        end, s))
  | Upload => let! r := check_upload ch now s c in Ret (Some r)
  | Audit =>
      let! r := key_audit (chOs ch) (chRounds ch) s (chLabels ch) in
      Ret match r with
          | None => None
          | Some ok => Some (Resp None (if ok then None else Some (bs "audit failure")), s)
          end
  end.

(** *** Clients *)
(** The requests of the four routes, exp/keysrv/keysrv.go:312-315. [BadBody] is an
    upload whose body cannot be read, with the text of the error. *)
Inductive request := GetServer | GetPublic (label : bytes) | GetFingerprint (label : bytes) | PutKey (label : bytes) (body : bytes) | BadBody (message : bytes).
(** [serverPublic], [getFingerprint], [getPublic], [addPublic],
    exp/keysrv/keysrv.go:34-98, up to the sending of the command. *)
Definition command_of (q : request) : option command :=
  match q with
  | GetServer => Some (Cmd Public self [])
  | GetPublic l => Some (Cmd Public l [])
  | GetFingerprint l => Some (Cmd Fingerprint (if decide (l = []) then self else l) [])
  | PutKey l b => Some (Cmd Upload l b)
  | BadBody _ => None
  end.
(** [sendCommand], exp/keysrv/keysrv.go:59-72, and 45: the status and body of the
    answer. [serverPublic] does not look at the error; the channels are never closed. *)
Definition answer (q : request) (r : response) : Z * bytes :=
  match q, aErr r with
  | GetServer, _ | _, None => (200, obytes (aOut r))
  | _, Some e => (400, e)
  end.
(** A request being served: before sending its command; waiting, and what is in its
    channel; answered. *)
Inductive cstate := CSend (c : command) | CWait (cell : option response) | CDone (a : Z * bytes).
(** [auditRunner], exp/keysrv/keysrv.go:196-213. *)
Inductive astate := ASend | AWait (cell : option response) | ASleep (until : Z).
(** [keystoreDispatch], exp/keysrv/keysrv.go:215-240: in the select; with a command;
    with a result; in an audit that does not end; writing the file. *)
Inductive who := Client (i : nat) | Auditor.
Inductive dstate := DSelect (timer : Z) | DHave (w : who) (c : command) | DReply (w : who) (r : response) | DHang (w : who) | DWrite (data : bytes) (n : nat).

Record server := Srv { vKs : kstore; vQueue : list (who * command); vDisp : dstate; vClients : gmap nat (request * cstate); vAud : astate;
                       vFs : fs; vNow : Z; vUp : bool }.
Definition with_client (v : server) (i : nat) (q : request) (c : cstate) : server :=
  Srv (vKs v) (vQueue v) (vDisp v) (<[i := (q, c)]> (vClients v)) (vAud v) (vFs v) (vNow v) (vUp v).
Definition with_disp (v : server) (d : dstate) : server := Srv (vKs v) (vQueue v) d (vClients v) (vAud v) (vFs v) (vNow v) (vUp v).
Definition with_ks (v : server) (s : kstore) : server := Srv s (vQueue v) (vDisp v) (vClients v) (vAud v) (vFs v) (vNow v) (vUp v).
Definition with_queue (v : server) (l : list (who * command)) : server := Srv (vKs v) l (vDisp v) (vClients v) (vAud v) (vFs v) (vNow v) (vUp v).
Definition with_aud (v : server) (a : astate) : server := Srv (vKs v) (vQueue v) (vDisp v) (vClients v) a (vFs v) (vNow v) (vUp v).
Definition with_files (v : server) (f : fs) : server := Srv (vKs v) (vQueue v) (vDisp v) (vClients v) (vAud v) f (vNow v) (vUp v).
Definition with_now (v : server) (t : Z) : server := Srv (vKs v) (vQueue v) (vDisp v) (vClients v) (vAud v) (vFs v) t (vUp v).
Definition down (v : server) : server := Srv (vKs v) (vQueue v) (vDisp v) (vClients v) (vAud v) (vFs v) (vNow v) false.
(** Sending on a callback channel; each has room for it. *)
Definition deliver (v : server) (w : who) (r : response) : server :=
  match w with
  | Client i => match vClients v !! i with Some (q, CWait None) => with_client v i q (CWait (Some r)) | _ => v end
  | Auditor => match vAud v with AWait None => with_aud v (AWait (Some r)) | _ => v end
  end.

(** What can be seen of a step. *)
Inductive event :=
  | EArrive (i : nat) (q : request) | ESend (w : who) | ERecv (w : who) | EDone (w : who) (c : command) (r : response) | EReply (w : who)
  | EAnswer (i : nat) (a : Z * bytes) | EAudited | EWake | ETick | EDump | EByte | EWritten (ok : bool) | EHang | EExit | EKill.
(** time.After(10 * time.Minute) and time.After(4 * time.Hour), in seconds; exp/keysrv/keysrv.go:217, 211. *)
Definition ten_minutes : Z := 600.
Definition four_hours : Z := 14400.
(** make(chan command, 16), exp/keysrv/keysrv.go:100. *)
Definition room : nat := 16.

(** The steps; [path] is the key store file. The timer of the select is made anew
    every time the dispatcher comes back to it; when both cases are ready either may be
    taken. A panic or log.Fatal ends the process ([EExit]), and so may anything from
    outside ([EKill]). *)
Inductive step (path : bytes) : server -> event -> server -> Prop :=
  | st_arrive v i q : vUp v = true -> vClients v !! i = None ->
      step path v (EArrive i q)
        (with_client v i q match q, command_of q with BadBody e, _ => CDone (400, e) | _, Some c => CSend c | _, None => CDone (400, []) end)
  | st_send v i q c : vUp v = true -> vClients v !! i = Some (q, CSend c) -> (length (vQueue v) < room)%nat ->
      step path v (ESend (Client i)) (with_queue (with_client v i q (CWait None)) (vQueue v ++ [(Client i, c)]))
  | st_send_audit v : vUp v = true -> vAud v = ASend -> (length (vQueue v) < room)%nat ->
      step path v (ESend Auditor) (with_queue (with_aud v (AWait None)) (vQueue v ++ [(Auditor, Cmd Audit [] [])]))
  | st_recv v t w c l : vUp v = true -> vDisp v = DSelect t -> vQueue v = (w, c) :: l ->
      step path v (ERecv w) (with_disp (with_queue v l) (DHave w c))
  | st_done v w c ch r s : vUp v = true -> vDisp v = DHave w c -> fair_choices (vKs v) ch -> process ch (vNow v) (vKs v) c = Ret (Some (r, s)) ->
      step path v (EDone w c r) (with_disp (with_ks v s) (DReply w r))
  | st_panic v w c ch : vUp v = true -> vDisp v = DHave w c -> fair_choices (vKs v) ch -> process ch (vNow v) (vKs v) c = Panic ->
      step path v EExit (down v)
  | st_hang v w c ch : vUp v = true -> vDisp v = DHave w c -> fair_choices (vKs v) ch ->
      (forall n, process (Ch (chOne ch) (chTwo ch) (chOs ch) (chLabels ch) n) (vNow v) (vKs v) c = Ret None) ->
      step path v EHang (with_disp v (DHang w))
  | st_reply v w r : vUp v = true -> vDisp v = DReply w r ->
      step path v (EReply w) (with_disp (deliver v w r) (DSelect (vNow v + ten_minutes)))
  | st_answer v i q r : vUp v = true -> vClients v !! i = Some (q, CWait (Some r)) ->
      step path v (EAnswer i (answer q r)) (with_client v i q (CDone (answer q r)))
  | st_audited v r : vUp v = true -> vAud v = AWait (Some r) -> aErr r = None ->
      step path v EAudited (with_aud v (ASleep (vNow v + four_hours)))
  | st_audit_fatal v r e : vUp v = true -> vAud v = AWait (Some r) -> aErr r = Some e -> step path v EExit (down v)
  | st_wake v t : vUp v = true -> vAud v = ASleep t -> t <= vNow v -> step path v EWake (with_aud v ASend)
  | st_tick v t : vUp v = true -> vNow v < t -> step path v ETick (with_now v t)
  | st_dump v t : vUp v = true -> vDisp v = DSelect t -> t <= vNow v ->
      step path v EDump (with_disp (with_files v (<[path := []]> (vFs v))) (DWrite (ks_dump (vKs v)) 0))
  | st_dump_refused v t : vUp v = true -> vDisp v = DSelect t -> t <= vNow v ->
      step path v (EWritten false) (with_disp v (DSelect (vNow v + ten_minutes)))
  | st_write v d n : vUp v = true -> vDisp v = DWrite d n -> (n < length d)%nat ->
      step path v EByte (with_disp (with_files v (<[path := take (S n) d]> (vFs v))) (DWrite d (S n)))
  | st_written v d : vUp v = true -> vDisp v = DWrite d (length d) -> step path v (EWritten true) (with_disp v (DSelect (vNow v + ten_minutes)))
  | st_write_fails v d n : vUp v = true -> vDisp v = DWrite d n -> step path v (EWritten false) (with_disp v (DSelect (vNow v + ten_minutes)))
  | st_killed v : vUp v = true -> step path v EKill (down v).
(** Runs, with the time of each step. *)
Inductive runs (path : bytes) : server -> list (Z * event) -> server -> Prop :=
  | run_nil v : runs path v [] v
  | run_step v tr v1 e v2 : runs path v tr v1 -> step path v1 e v2 -> runs path v (tr ++ [(vNow v1, e)]) v2.

(** *** Starting *)
(** [loadStore], exp/keysrv/keysrv.go:242-293; [pass] is what is typed, [None] an error;
    [n1] to [n3] the times of day. A failing write is only reported. *)
Definition serve_load (f : fs) (path : bytes) (pass : option bytes) (n1 n2 n3 : Z) (g : rng) (w : wfate) : outcome (option kstore * fs * rng) :=
  let flush := match f !! path with Some _ => false | None => true end in
  match pass with
  | None => Ret (None, f, g)
  | Some pass =>
      let! r := load_kstore f path true n1 n2 g in
      let '(s, g) := r in
      match s with
      | None => Ret (None, f, g)
      | Some s =>
          let! ok := ks_valid s in
          if negb ok then Ret (None, f, g) else
          if negb flush then
            let! r := ks_unlock n3 s pass in
            let '(ok, s) := r in
            Ret (if ok then Some s else None, f, g)
          else
            let! r := ks_lock_with s pass g in
            let '(ok, s, _, g) := r in
            if negb ok then Ret (None, f, g) else
            let! r := ks_unlock n3 s pass in
            let '(ok, s) := r in
            if negb ok then Ret (None, f, g) else
            Ret (Some s, snd (write_file w f path (ks_dump s)), g)
      end
  end.
(** [main], exp/keysrv/keysrv.go:295-317, after the audit: the state in which serving begins. *)
Definition serving (s : kstore) (f : fs) (now : Z) : server := Srv s [] (DSelect (now + ten_minutes)) ∅ ASend f now true.
End WithCrypto.

(** Specification vocabulary for the key server, written without the functions of
    its model. *)
From Verif Require Export KeySrv SpecKeyStore.
Local Open Scope Z_scope.

Section WithCrypto.
Context `{C : Crypto}.

(** The certificate a record holds, as text. *)
Definition certificate_text (r : krec) : bytes := serialise (VKey (subject r) (signer r) (krSigTime r) (signature r)).
Definition fingerprint_of (key : bytes) : bytes := hex_encode (sha256 key).

(** What a command answers and leaves, for a store [s]. *)
Inductive served (s : kstore) : command -> response -> kstore -> Prop :=
  | sv_own d : served s (Cmd Public (bs "self") d) (Resp (ksExport s) None) s
  | sv_public l r d : l <> bs "self" -> krecord s l r -> served s (Cmd Public l d) (Resp (Some (certificate_text r)) None) s
  | sv_no_public l d : l <> bs "self" -> ~ kpresent s l -> served s (Cmd Public l d) (Resp None (Some (bs "export failed"))) s
  | sv_own_print d : served s (Cmd Fingerprint (bs "self") d) (Resp (Some (fingerprint_of (owner s))) None) s
  | sv_print l r d : l <> bs "self" -> l <> [] -> krecord s l r ->
      served s (Cmd Fingerprint l d) (Resp (Some (fingerprint_of (subject r))) None) s
  | sv_print_empty r d : krecord s [] r ->
      served s (Cmd Fingerprint [] d) (Resp (Some (fingerprint_of (subject r))) (Some (bs "missing label"))) s
  | sv_no_print l d : l <> bs "self" -> ~ kpresent s l -> served s (Cmd Fingerprint l d) (Resp None (Some (bs "fingerprint failed"))) s
  | sv_bad_label l d : l = bs "self" \/ l = [] -> served s (Cmd Upload l d) (Resp None (Some (bs "invalid label"))) s
  | sv_refused l d : l <> bs "self" -> l <> [] ->
      (distinct_keys s -> forall v, parse_verified_key d = Some v -> ~ importable s l v) -> served s (Cmd Upload l d) (Resp None (Some (bs "failed to add public key"))) s
  | sv_added l d v now s' : l <> [] -> parse_verified_key d = Some v -> importable s l v ->
      added s l (KRec l 1 now (Some (vPublic v)) (Some (vSig v)) (Some (vSigner v)) (vTime v) None) s' ->
      served s (Cmd Upload l d) (Resp (Some (bs "public key added successfully")) None) s'
  | sv_audit l d : served s (Cmd Audit l d) (Resp None None) s.
(** A sequence of commands with their responses, one after the other. *)
Inductive serial : kstore -> list (who * command * response) -> kstore -> Prop :=
  | se_nil s : serial s [] s
  | se_snoc s l s1 w c r s2 : serial s l s1 -> served s1 c r s2 -> serial s (l ++ [(w, c, r)]) s2.
End WithCrypto.

(** Reading a trace. *)
Definition trace := list (Z * event).
Definition dones (tr : trace) : list (who * command * response) := omap (fun e => match snd e with EDone w c r => Some (w, c, r) | _ => None end) tr.
Definition sends (tr : trace) : list who := omap (fun e => match snd e with ESend w => Some w | _ => None end) tr.
Definition recvs (tr : trace) : list who := omap (fun e => match snd e with ERecv w => Some w | _ => None end) tr.
(** The events of one client, in order. *)
Definition concerns (i : nat) (e : event) : bool :=
  match e with
  | EArrive j _ | EAnswer j _ | ESend (Client j) | ERecv (Client j) | EDone (Client j) _ _ | EReply (Client j) => bool_decide (j = i)
  | _ => false
  end.
Definition own (i : nat) (tr : trace) : list event := omap (fun e => if concerns i (snd e) then Some (snd e) else None) tr.
(** The life of a request that gets response [r]. *)
Definition life (i : nat) (q : request) (c : command) (r : response) : list event :=
  [EArrive i q; ESend (Client i); ERecv (Client i); EDone (Client i) c r; EReply (Client i); EAnswer i (answer q r)].
(** The dispatcher's dealings: with commands, and with the file. *)
Definition dealing (e : event) : Prop := match e with ERecv _ | EDone _ _ _ | EReply _ | EWritten _ => True | _ => False end.
(** Steps in which nobody new arrives, nothing ends or hangs, and no time passes. *)
Definition inner (e : event) : Prop := match e with EArrive _ _ | EKill | EExit | EHang | ETick => False | _ => True end.
(** The request has its answer. *)
Definition answered (v : server) (i : nat) : Prop := exists q a, vClients v !! i = Some (q, CDone a).

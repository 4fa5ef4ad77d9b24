(** Model of common/auth/examples/login/login.go. Lines of the log are represented by
    their text on the output, without the time and without the reason of a failure;
    prompts are left out. No proofs here. *)
From Verif Require Export Auth Cmd Base32.
Local Open Scope Z_scope.

(** [Authenticator], common/auth/authenticator.go:16-21, with a Secret that may be nil,
    and [User], common/auth/examples/login/login.go:19-22. *)
Record lauth := LAuth { lType : bytes; lLabel : bytes; lLast : bytes; lSecret : option bytes }.
Record luser := LUser { uName : bytes; uAuth : option lauth }.
(** The variable store, common/auth/examples/login/login.go:24-30: pointers, nil ones included; [None] is the nil map. *)
Notation users := (gmap bytes (option luser)).
Definition lstore : Type := option users.

(** *** JSON *)
Definition jlauth (a : option lauth) : json :=
  match a with
  | None => JNull
  | Some a => JObj [(bs "type", JStr (lType a)); (bs "label", JStr (lLabel a)); (bs "last", JStr (lLast a)); (bs "secret", jbytes (lSecret a))]
  end.
Definition jluser (u : option luser) : json :=
  match u with None => JNull | Some u => JObj [(bs "Name", JStr (uName u)); (bs "Auth", jlauth (uAuth u))] end.
Definition lauth_field (k : bytes) (j : json) (a : lauth) : option lauth :=
  if field_is (bs "type") k then
    match dec_str (lType a) j with Some v => Some (LAuth v (lLabel a) (lLast a) (lSecret a)) | None => None end
  else if field_is (bs "label") k then
    match dec_str (lLabel a) j with Some v => Some (LAuth (lType a) v (lLast a) (lSecret a)) | None => None end
  else if field_is (bs "last") k then
    match dec_str (lLast a) j with Some v => Some (LAuth (lType a) (lLabel a) v (lSecret a)) | None => None end
  else if field_is (bs "secret") k then
    match dec_bytes (lSecret a) j with Some v => Some (LAuth (lType a) (lLabel a) (lLast a) v) | None => None end
  else Some a.
(** A pointer that is already set is decoded into. *)
Definition dec_lauth (cur : option lauth) (j : json) : option (option lauth) :=
  dec_ptr (dec_struct lauth_field (default (LAuth [] [] [] None) cur)) j.
Definition luser_field (k : bytes) (j : json) (u : luser) : option luser :=
  if field_is (bs "Name") k then
    match dec_str (uName u) j with Some v => Some (LUser v (uAuth u)) | None => None end
  else if field_is (bs "Auth") k then
    match dec_lauth (uAuth u) j with Some v => Some (LUser (uName u) v) | None => None end
  else Some u.
Definition dec_luser (j : json) : option luser := dec_struct luser_field (LUser [] None) j.
(** [json.Unmarshal(in, &store)] into the nil map, and [json.Marshal(store)]. *)
Definition dec_users (j : json) : option lstore := dec_map (dec_ptr dec_luser) None j.
Definition users_json (s : lstore) : bytes := print (jmap jluser s).

(** [loadStore], common/auth/examples/login/login.go:209-222. *)
Definition load_users (path : bytes) (w : world) : res lstore :=
  if negb (w_exists w path) then Done (Some ∅) w else
  match w_raw_read w path with
  | None => Fail w
  | Some d =>
      match parse_json d with
      | None => Fail w
      | Some j => match dec_users j with None => Fail w | Some s => Done s w end
      end
  end.
(** [writeStore], common/auth/examples/login/login.go:224-230. *)
Definition write_users (path : bytes) (s : lstore) (w : world) : res unit :=
  let '(ok, w) := w_raw_write w path (users_json s) in if ok then Done tt w else Fail w.

(** The authenticator as the validators see it, and after they have written to it. *)
Definition auth_of (a : lauth) : auth := Auth (lType a) (lLabel a) (lLast a) (default [] (lSecret a)).
Definition auth_back (old : lauth) (a : auth) : lauth :=
  LAuth (aType a) (aLabel a) (aLast a) (if decide (aSecret a = default [] (lSecret old)) then lSecret old else Some (aSecret a)).
Definition user_back (u : luser) (a : option auth) : luser :=
  match uAuth u, a with Some old, Some a => LUser (uName u) (Some (auth_back old a)) | _, _ => u end.

(** What the log says. *)
Definition success : bytes := bs "authentication successful" ++ [x0a].
Definition failure : bytes := bs "authentication failed" ++ [x0a].

Section WithCrypto.
Context `{C : Crypto} `{A : AuthLib}.

(** [login], common/auth/examples/login/login.go:36-65: is there to be another, and the
    store. Only a TOTP looks at the time; the others do not notice the reading. *)
Definition login (path : bytes) (s : lstore) (w : world) : res (bool * lstore) :=
  match w_line w with
  | (None, w) => Fail w
  | (Some name, w) =>
      if decide (name = []) then Done (false, s) w else
      match w_line w with
      | (None, w) => Fail w
      | (Some pw, w) =>
          match default ∅ s !! name with
          | None => Done (true, s) (w_print w failure)
          | Some None => Crash w
          | Some (Some u) =>
              let '(now, w) := w_now w in
              let* (v, w) := lift (validate (to_u 64 now) (auth_of <$> uAuth u) pw (wRng w)) w in
              let w := set_rng w (v_rng v) in
              let s := <[name := Some (user_back u (v_auth v))]> <$> s in
              match v_err v with
              | Some _ => Done (true, s) (w_print w failure)
              | None =>
                  let* (_, w) := (if v_update v then write_users path s w else Done tt w) in
                  Done (true, s) (w_print w success)
              end
          end
      end
  end.
(** The loop of [main], common/auth/examples/login/login.go:174-178. *)
Fixpoint logins (f : nat) (path : bytes) (s : lstore) (w : world) : res lstore :=
  match f with
  | O => Spin
  | S f => let* (r, w) := login path s w in if fst r then logins f path (snd r) w else Done (snd r) w
  end.

(** [base32.StdEncoding.EncodeToString]. *)
Fixpoint b32_encode_fuel (f : nat) (s : bytes) : bytes :=
  match f, s with
  | O, _ | _, [] => []
  | S f, _ =>
      let g := take 5 s in
      let n := ((8 * length g + 4) / 5)%nat in
      let v := unbe g * 2 ^ (40 - 8 * zlen g) in
      let c i := let d := v / 32 ^ (7 - Z.of_nat i) mod 32 in zb (if decide (d < 26) then 65 + d else 24 + d) in
      map c (seq 0 n) ++ repeat x3d (8 - n) ++ b32_encode_fuel f (drop 5 s)
  end.
Definition b32_encode (s : bytes) : bytes := b32_encode_fuel (length s) s.
(** [ExportUserTOTP], common/auth/totp.go:176-198, with a label: the text of the key and
    the picture; [qr] draws the picture for a configuration. *)
Definition export_user (qr : totp -> option bytes) (a : auth) : outcome (option (bytes * bytes)) :=
  if decide (aType a <> TypeTOTP) then Ret None else
  let! c := parse_totp (aSecret a) in
  Ret match c with
      | None => None
      | Some c => match qr c with None => None | Some p => Some (b32_encode (tKey c), p) end
      end.
Definition of_auth (a : auth) : lauth := LAuth (aType a) (aLabel a) (aLast a) (Some (aSecret a)).
(** [regPassword], common/auth/examples/login/login.go:77-85. *)
Definition reg_password (w : world) : res lauth :=
  match w_pass w with
  | (None, w) => Fail w
  | (Some pw, w) =>
      let '(a, g) := new_password pw 0 (wRng w) in
      let w := set_rng w g in
      match a with None => Fail w | Some a => Done (of_auth a) w end
  end.
(** [regTOTP], common/auth/examples/login/login.go:90-99; TOTPProvider is never set. *)
Definition picture : bytes := bs "qr.png".
Definition key_line (key : bytes) : bytes := bs "Google Authenticator TOTP key: " ++ key ++ [x0a].
Definition reg_totp (qr : totp -> option bytes) (w : world) : res lauth :=
  let '(now, w) := w_now w in
  let* (r, w) := lift (new_google [] (to_u 64 now) (wRng w)) w in
  let w := set_rng w (snd r) in
  match fst r with
  | None => Fail w
  | Some a =>
      let* (ud, w) := lift (export_user qr a) w in
      match ud with
      | None => Fail w
      | Some (key, png) =>
          let '(ok, w) := w_raw_write w picture png in
          if ok then Done (of_auth a) (w_print w (key_line key)) else Fail w
      end
  end.
(** The loop of [register], common/auth/examples/login/login.go:140-152. *)
Fixpoint ask_type (f : nat) (qr : totp -> option bytes) (w : world) : res lauth :=
  match f with
  | O => Spin
  | S f =>
      match w_line w with
      | (None, w) => Fail w
      | (Some t, w) =>
          if decide (t = TypePassword) then reg_password w
          else if decide (t = TypeTOTP) then reg_totp qr w else ask_type f qr w
      end
  end.
(** [register], common/auth/examples/login/login.go:123-157: assigning to the nil map panics. *)
Definition register (f : nat) (qr : totp -> option bytes) (path : bytes) (s : lstore) (w : world) : res lstore :=
  match w_line w with
  | (None, w) => Fail w
  | (Some name, w) =>
      let* (a, w) := ask_type f qr w in
      match s with
      | None => Crash w
      | Some m =>
          let s := Some (<[name := Some (LUser name (Some a))]> m) in
          let* (_, w) := write_users path s w in
          Done s (w_print w (bs "registered " ++ name ++ [x0a]))
      end
  end.

(** [main], common/auth/examples/login/login.go:159-183. *)
Definition login_main (f : nat) (qr : totp -> option bytes) (path : bytes) (args : list bytes) (w : world) : res lstore :=
  match args with
  | [] => Fail w
  | cmd :: _ =>
      let* (s, w) := load_users path w in
      if decide (cmd = bs "register") then register f qr path s w
      else if decide (cmd = bs "run") then logins f path s w else Fail w
  end.
End WithCrypto.

(** Specification vocabulary for the login example. *)
From Verif Require Export Login SpecCmd SpecAuth SpecJson SpecBase32 SpecGo.
Local Open Scope Z_scope.

(** The users kept in the file at [path]: none when there is no file. *)
Definition on_file (f : fs) (path : bytes) (s : lstore) : Prop :=
  (f !! path = None /\ s = Some ∅) \/
  (exists d j, f !! path = Some d /\ json_text d j /\ go_users j s).
(** Who is known, and with what authenticator. *)
Definition known (s : lstore) (n : bytes) (u : option luser) : Prop := exists m, s = Some m /\ m !! n = Some u.
Definition unknown (s : lstore) (n : bytes) : Prop := forall u, ~ known s n u.
Definition with_user (s : lstore) (n : bytes) (u : luser) (s' : lstore) : Prop :=
  exists m, s = Some m /\ s' = Some (<[n := Some u]> m).
(** Every line that can be read is UTF-8. *)
Definition text_input (i : stdin) : Prop := forall ls i', hears i ls i' -> Forall utf8_text ls.

(** What happens to the users: an attempt to log in, at a time and with a random source, and
    what the log says about it; and a registration. *)
Record tried := Tried { trName : bytes; trPw : bytes; trNow : Z; trRng : rng; trOk : bool }.
Inductive event := Logged (t : tried) | Enrolled (n : bytes) (a : lauth).
Definition verdict (b : bool) : bytes := if b then bs "authentication successful" ++ [x0a] else bs "authentication failed" ++ [x0a].
Definition said (e : event) : bytes :=
  match e with Logged t => verdict (trOk t) | Enrolled n _ => bs "registered " ++ n ++ [x0a] end.
Definition entered (e : event) : list bytes :=
  match e with Logged t => [trName t; trPw t] | Enrolled _ _ => [] end.
Definition login_event (e : event) : Prop := exists t, e = Logged t /\ trName t <> [].
(** The times are readings of the clock, in order. *)
Inductive timed : list Z -> list event -> Prop :=
  | ti_nil clk : timed clk []
  | ti_cons clk t es ts clk' : trNow t = nth 0 clk 0 mod 2 ^ 64 -> clk = ts ++ clk' -> timed clk' es -> timed clk (Logged t :: es).
(** The attempts in the name of [n] that the log calls successful. *)
Definition accepted_as (n : bytes) (es : list event) : list tried :=
  omap (fun e => match e with Logged t => if decide (trName t = n /\ trOk t = true) then Some t else None | Enrolled _ _ => None end) es.
(** A user with a TOTP. *)
Definition totp_user (name lbl lst : bytes) (c : totp) : luser := LUser name (Some (LAuth (bs "TOTP") lbl lst (Some (totp_bytes c)))).

(** A user with a password, by its hash. *)
Definition password_user (name h : bytes) : luser := LUser name (Some (LAuth (bs "password") [] [] (Some h))).
(** [u'] is the user with [a] as the library left it; nothing else is different. *)
Definition left_with (u : luser) (a : option auth) (u' : luser) : Prop :=
  uName u' = uName u /\ auth_of <$> uAuth u' = a /\ (auth_of <$> uAuth u = a -> u' = u).

(** What is asked for after the name: other words, then one of the two types. *)
Definition asked (i : stdin) (ty : bytes) (i' : stdin) : Prop :=
  exists ls, hears i (ls ++ [ty]) i' /\ Forall (fun l => l <> bs "password" /\ l <> bs "TOTP") ls.

Section WithCrypto.
Context `{C : Crypto} `{A : AuthLib}.
(** What the library says about a user's attempt: [e] its error, [a] the authenticator after it. *)
Definition answers (u : luser) (t : tried) (a : option auth) (e : option aerr) : Prop :=
  exists upd g', validate (trNow t) (auth_of <$> uAuth u) (trPw t) (trRng t) = Ret (VRes a upd e g').
Inductive history : lstore -> list event -> lstore -> Prop :=
  | hi_nil s : history s [] s
  | hi_unknown s t es s' : unknown s (trName t) -> trOk t = false -> history s es s' -> history s (Logged t :: es) s'
  | hi_refused s t u a e es s' : known s (trName t) (Some u) -> answers u t a (Some e) -> trOk t = false -> history s es s' ->
      history s (Logged t :: es) s'
  | hi_accepted s t u a u' s1 es s' : known s (trName t) (Some u) -> answers u t a None -> trOk t = true ->
      left_with u a u' -> with_user s (trName t) u' s1 -> history s1 es s' -> history s (Logged t :: es) s'
  | hi_enrolled s n a s1 es s' : with_user s n (LUser n (Some a)) s1 -> history s1 es s' -> history s (Enrolled n a :: es) s'.
(** The authenticator that registration with type [ty] makes and the line it prints,
    from the answers to the password prompt, the clock and the random source. *)
Definition enrols (ty : bytes) (w : world) (a : lauth) (k : bytes) (ps : list (option bytes)) (g : rng) : Prop :=
  (ty = bs "password" /\ k = [] /\ exists p salt, wPw w = Some p :: ps /\ (length p <= 72)%nat /\ length salt = 16%nat /\ delivers (wRng w) salt g /\
     a = LAuth (bs "password") [] [] (Some (bcrypt_hash 14 salt (bkey p)))) \/
  (ty = bs "TOTP" /\ exists key code b, length key = 20%nat /\ delivers (wRng w) key g /\ b32_padded key b /\
     k = bs "Google Authenticator TOTP key: " ++ b ++ [x0a] /\
     totp_code (Totp key 0 30 6 3 []) (nth 0 (wClk w) 0 mod 2 ^ 64) code /\
     a = LAuth (bs "TOTP") [] code (Some (totp_bytes (Totp key 0 30 6 3 []))) /\ ps = wPw w).
(** The program over and over again on the same file, by whatever arguments and with whatever
    ends; [outs] is what each of them prints. Other programs may change other files. *)
Inductive lifetime (qr : totp -> option bytes) (path : bytes) : fs -> list bytes -> fs -> Prop :=
  | lt_nil f : lifetime qr path f [] f
  | lt_process f k args w w' o outs f' : wFs w = f -> disk_ok w -> text_input (wIn w) -> ends (login_main k qr path args w) w' ->
      wOut w' = wOut w ++ o -> lifetime qr path (wFs w') outs f' -> lifetime qr path f (o :: outs) f'
  | lt_other f f1 outs f' : f1 !! path = f !! path -> lifetime qr path f1 outs f' -> lifetime qr path f outs f'.
End WithCrypto.
(** What is printed about a key, if anything; and what is printed about a list of events. *)
Definition key_lines (k : bytes) : Prop := k = [] \/ exists b, k = bs "Google Authenticator TOTP key: " ++ b ++ [x0a].
Definition tells (o : bytes) (es : list event) : Prop := exists k, key_lines k /\ o = k ++ concat (map said es).

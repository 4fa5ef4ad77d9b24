(** Property C73: the login example. *)
From Verif Require Export LoginMore.
From Verif Require Import ToyAuth.
Local Open Scope Z_scope.

(** For the examples: processes on a file, one after another. *)
Definition xl_w (f : fs) (i : list bytes) (pws : list (option bytes)) (now : Z) (fate : list wfate) : world :=
  World f (map typed i) pws [now; now; now; now] (map Some (replicate 20 x0b)) fate [].
Definition xl_run (cmd : bytes) (f : fs) (i : list bytes) (pws : list (option bytes)) (now : Z) (fate : list wfate) : res lstore :=
  login_main (C:=toy) (A:=toy_auth) 9 (fun _ => Some (bs "PNG")) (bs "auth.db") [cmd] (xl_w f i pws now fate).
Definition xl_done (r : res lstore) (p : world -> bool) : bool := match r with Done _ w => p w | _ => false end.
Definition xl_fails (r : res lstore) : bool := match r with Fail _ => true | _ => false end.
Definition xl_crashes (r : res lstore) : bool := match r with Crash _ => true | _ => false end.
Definition xl_totp : totp := Totp (replicate 20 x0b) 0 30 6 3 [].
Definition xl_code (now : Z) : bytes := match otp_at (C:=toy) xl_totp now with Ret (Some a) => a | _ => [] end.
Definition xl_yes : bytes := bs "authentication successful" ++ [x0a].
Definition xl_no : bytes := bs "authentication failed" ++ [x0a].
(** After alice has registered with a TOTP at the time 59. *)
Definition xl_alice : fs :=
  match xl_run (bs "register") ∅ [bs "alice"; bs "totp"; bs "yubikey"; bs "TOTP"] [] 59 [] with Done _ w => wFs w | _ => ∅ end.
(** C73. The login example: who gets in, over any number of processes on one file, and what the file holds. *)
Theorem C73_run :
  forall (C : Crypto) (L : CryptoLaws) (A : AuthLib) f qr path rest s w w',
    path <> [] -> disk_ok w -> text_input (wIn w) -> on_file (wFs w) path s ->
    ends (login_main f qr path (bs "run" :: rest) w) w' ->
    exists es s', history s es s' /\ on_file (wFs w') path s' /\ wOut w' = wOut w ++ concat (map said es) /\
      Forall login_event es /\ (exists i, hears (wIn w) (concat (map entered es)) i) /\ timed (wClk w) es /\ only_changes path (wFs w) (wFs w') /\
      (forall s1, login_main f qr path (bs "run" :: rest) w = Done s1 w' -> s1 = s' /\ hears (wIn w) (concat (map entered es) ++ [[]]) (wIn w')).
Proof. exact @main_run. Qed.
Print Assumptions C73_run.

Theorem C73_register :
  forall (C : Crypto) (L : CryptoLaws) (A : AuthLib) f qr path rest s w s' w',
    path <> [] -> path <> bs "qr.png" -> on_file (wFs w) path s ->
    login_main f qr path (bs "register" :: rest) w = Done s' w' ->
    exists n a ls ty k, hears (wIn w) (n :: ls ++ [ty]) (wIn w') /\ Forall (fun l => l <> bs "password" /\ l <> bs "TOTP") ls /\
      enrols ty w a k (wPw w') (wRng w') /\ with_user s n (LUser n (Some a)) s' /\ wOut w' = wOut w ++ k ++ said (Enrolled n a) /\
      (utf8_text n -> on_file (wFs w') path s') /\ (forall q, q <> path -> q <> bs "qr.png" -> wFs w' !! q = wFs w !! q).
Proof. exact @register_done. Qed.
Print Assumptions C73_register.

Theorem C73_register_fails :
  forall (C : Crypto) (L : CryptoLaws) (A : AuthLib) f qr path rest s w w',
    path <> [] -> path <> bs "qr.png" -> disk_ok w -> on_file (wFs w) path s ->
    ends (login_main f qr path (bs "register" :: rest) w) w' -> (forall s', login_main f qr path (bs "register" :: rest) w <> Done s' w') ->
    on_file (wFs w') path s /\ (forall q, q <> path -> q <> bs "qr.png" -> wFs w' !! q = wFs w !! q) /\ exists k, key_lines k /\ wOut w' = wOut w ++ k.
Proof. exact @register_otherwise. Qed.
Print Assumptions C73_register_fails.

Theorem C73_process :
  forall (C : Crypto) (L : CryptoLaws) (A : AuthLib) f qr path args s w w',
    path <> [] -> path <> bs "qr.png" -> disk_ok w -> text_input (wIn w) -> on_file (wFs w) path s ->
    ends (login_main f qr path args w) w' -> exists es s' k, history s es s' /\ on_file (wFs w') path s' /\ key_lines k /\ wOut w' = wOut w ++ k ++ concat (map said es).
Proof. exact @process. Qed.
Print Assumptions C73_process.

Theorem C73_lifetime :
  forall (C : Crypto) (L : CryptoLaws) (A : AuthLib) qr path f outs f',
    path <> [] -> path <> bs "qr.png" -> lifetime qr path f outs f' -> forall s, on_file f path s ->
    exists ess s', Forall2 tells outs ess /\ history s (concat ess) s' /\ on_file f' path s'.
Proof. exact @lifetime_history. Qed.
Print Assumptions C73_lifetime.

Theorem C73_totp :
  forall (C : Crypto) (L : CryptoLaws) (A : AuthLib) qr path f outs f' s c lbl nm n lst,
    path <> [] -> path <> bs "qr.png" -> lifetime qr path f outs f' -> on_file f path s ->
    usable_totp c -> known s n (Some (totp_user nm lbl lst c)) ->
    exists ess s', Forall2 tells outs ess /\ on_file f' path s' /\
      ((forall a, Enrolled n a ∉ concat ess) ->
       known s' n (Some (totp_user nm lbl (List.last (lst :: map trPw (accepted_as n (concat ess))) []) c)) /\
       forall pre t post, concat ess = pre ++ Logged t :: post -> trName t = n ->
         (trOk t = true <-> trPw t <> List.last (lst :: map trPw (accepted_as n pre)) [] /\
           (totp_code c (trNow t) (trPw t) \/ totp_code c (trNow t - tStep c) (trPw t)))).
Proof. exact @lifetime_totp. Qed.
Print Assumptions C73_totp.

Theorem C73_password :
  forall (C : Crypto) (L : CryptoLaws) (A : AuthLib) (AL : AuthLibLaws) qr path f outs f' s p salt nm n,
    path <> [] -> path <> bs "qr.png" -> lifetime qr path f outs f' -> on_file f path s ->
    (length p <= 72)%nat -> length salt = 16%nat -> known s n (Some (password_user nm (bcrypt_hash 14 salt (bkey p)))) ->
    exists ess s', Forall2 tells outs ess /\ on_file f' path s' /\
      ((forall a, Enrolled n a ∉ concat ess) ->
       known s' n (Some (password_user nm (bcrypt_hash 14 salt (bkey p)))) /\
       forall t, Logged t ∈ concat ess -> trName t = n -> (bkey (trPw t) = bkey p -> trOk t = true) /\
         ((forall salt k1 k2, length k1 = 72%nat -> length k2 = 72%nat -> bcrypt_hash 14 salt k1 = bcrypt_hash 14 salt k2 -> k1 = k2) ->
          trOk t = true -> bkey (trPw t) = bkey p)).
Proof. exact @lifetime_password. Qed.
Print Assumptions C73_password.

Theorem C73_right_code :
  forall (C : Crypto) (L : CryptoLaws) (A : AuthLib) f qr path rest s w n pw i nm lbl lst c,
    path <> [] -> disk_ok w -> text_input (wIn w) -> on_file (wFs w) path s ->
    usable_totp c -> n <> [] -> known s n (Some (totp_user nm lbl lst c)) -> hears (wIn w) [n; pw; []] i ->
    pw <> lst -> (let now := nth 0 (wClk w) 0 mod 2 ^ 64 in totp_code c now pw \/ totp_code c (now - tStep c) pw) ->
    exists s' w', login_main (S (S f)) qr path (bs "run" :: rest) w = Done s' w' /\
      wOut w' = wOut w ++ verdict true /\ on_file (wFs w') path s' /\ with_user s n (totp_user nm lbl pw c) s'.
Proof. exact @right_code_admitted. Qed.
Print Assumptions C73_right_code.

Theorem C73_empty_name :
  forall (C : Crypto) (A : AuthLib) f qr path rest s w i,
    path <> [] -> on_file (wFs w) path s -> hears (wIn w) [[]] i ->
    exists w', login_main (S f) qr path (bs "run" :: rest) w = Done s w' /\ wOut w' = wOut w /\ wFs w' = wFs w.
Proof. exact @empty_name_leaves. Qed.
Print Assumptions C73_empty_name.

Theorem C73_null_registers :
  forall (C : Crypto) (A : AuthLib) f qr path rest w w' s',
    path <> [] -> on_file (wFs w) path None -> login_main f qr path (bs "register" :: rest) w <> Done s' w'.
Proof. exact @null_registers_nobody. Qed.
Print Assumptions C73_null_registers.

Theorem C73_null_admits :
  forall (C : Crypto) (A : AuthLib) es s',
    history None es s' -> s' = None /\ forall t, Logged t ∈ es -> trOk t = false.
Proof. exact @null_admits_nobody. Qed.
Print Assumptions C73_null_admits.

Theorem C73_null_user_refuted :
  forall (C : Crypto) (A : AuthLib) f qr path rest s w n pw i,
    path <> [] -> on_file (wFs w) path s -> n <> [] -> known s n None -> hears (wIn w) [n; pw] i ->
    exists w', login_main (S f) qr path (bs "run" :: rest) w = Crash w' /\ wOut w' = wOut w /\ wFs w' = wFs w.
Proof. exact @null_user_crashes. Qed.
Print Assumptions C73_null_user_refuted.

Theorem C73_spaced_password_refuted :
  forall (C : Crypto) (L : CryptoLaws) (A : AuthLib) (AL : AuthLibLaws) f qr path rest s w w' n p salt nm,
    path <> [] -> disk_ok w -> text_input (wIn w) -> on_file (wFs w) path s ->
    (forall salt k1 k2, length k1 = 72%nat -> length k2 = 72%nat -> bcrypt_hash 14 salt k1 = bcrypt_hash 14 salt k2 -> k1 = k2) -> (length p < 72)%nat -> length salt = 16%nat -> (exists ws u, white_space ws /\ (p = ws ++ u \/ p = u ++ ws)) -> x00 ∉ p ->
    known s n (Some (password_user nm (bcrypt_hash 14 salt (bkey p)))) ->
    ends (login_main f qr path (bs "run" :: rest) w) w' ->
    exists es s', history s es s' /\ wOut w' = wOut w ++ concat (map said es) /\
      forall t, Logged t ∈ es -> trName t = n -> x00 ∉ trPw t -> (length (trPw t) < 72)%nat -> trOk t = false.
Proof. exact @spaced_password. Qed.
Print Assumptions C73_spaced_password_refuted.

Theorem C73_strange_name_refuted :
  forall (C : Crypto) (L : CryptoLaws) (A : AuthLib) f qr path rest s w s' w',
    path <> [] -> path <> bs "qr.png" -> on_file (wFs w) path s ->
    login_main f qr path (bs "register" :: rest) w = Done s' w' ->
    exists n a k o, wOut w' = wOut w ++ k ++ o /\ o = said (Enrolled n a) /\ known s' n (Some (LUser n (Some a))) /\
      (~ utf8_text n -> forall s2, on_file (wFs w') path s2 -> unknown s2 n).
Proof. exact @strange_name. Qed.
Print Assumptions C73_strange_name_refuted.

Theorem C73_torn_refuted :
  forall (C : Crypto) (L : CryptoLaws) (A : AuthLib) f qr path rest s w n pw i nm lbl lst c k fates,
    path <> [] -> text_input (wIn w) -> on_file (wFs w) path s ->
    usable_totp c -> n <> [] -> known s n (Some (totp_user nm lbl lst c)) -> hears (wIn w) [n; pw] i ->
    pw <> lst -> (let now := nth 0 (wClk w) 0 mod 2 ^ 64 in totp_code c now pw \/ totp_code c (now - tStep c) pw) ->
    wFate w = WPartial k :: fates ->
    exists w', login_main (S f) qr path (bs "run" :: rest) w = Fail w' /\ wOut w' = wOut w /\
      (forall s', on_file (wFs w') path s' -> with_user s n (totp_user nm lbl pw c) s') /\
      ((k <= 1)%nat -> forall s', ~ on_file (wFs w') path s').
Proof. exact @torn_login. Qed.
Print Assumptions C73_torn_refuted.

Theorem C73_damaged :
  forall (C : Crypto) (A : AuthLib) f qr path args w,
    path <> [] -> (forall s, ~ on_file (wFs w) path s) -> login_main f qr path args w = Fail w.
Proof. exact @main_damaged. Qed.
Print Assumptions C73_damaged.

Theorem C73_usage :
  forall (C : Crypto) (A : AuthLib) f qr path args w,
    (forall rest, args <> bs "register" :: rest /\ args <> bs "run" :: rest) -> login_main f qr path args w = Fail w.
Proof. exact @main_usage. Qed.
Print Assumptions C73_usage.

Example C73_registered :
  bool_decide (length (map_to_list xl_alice) = 2%nat) && bool_decide (xl_alice !! bs "qr.png" = Some (bs "PNG")) &&
  xl_done (xl_run (bs "register") ∅ [bs "alice"; bs "TOTP"] [] 59 []) (fun w =>
    bool_decide (wOut w = bs "Google Authenticator TOTP key: BMFQWCYLBMFQWCYLBMFQWCYLBMFQWCYL" ++ [x0a] ++ bs "registered alice" ++ [x0a])) = true.
Proof. vm_compute. reflexivity. Qed.
(** The code shown while registering is spent; the next one is good once; a stranger is refused. *)
Example C73_logins :
  xl_done (xl_run (bs "run") xl_alice [bs "alice"; xl_code 59; bs "bob"; bs "x"; bs "alice"; xl_code 89; bs "alice"; xl_code 89; []] [] 89 []) (fun w =>
    bool_decide (wOut w = xl_no ++ xl_no ++ xl_yes ++ xl_no) &&
    xl_done (xl_run (bs "run") (wFs w) [bs "alice"; xl_code 89; bs "alice"; xl_code 119; []] [] 119 []) (fun w => bool_decide (wOut w = xl_no ++ xl_yes))) = true.
Proof. vm_compute. reflexivity. Qed.
Example C73_usable : usable_totp xl_totp /\ totp_code (C:=toy) xl_totp 89 (xl_code 89) /\ xl_code 89 <> xl_code 59.
Proof.
  assert (usable_totp xl_totp) as U by (vm_compute; repeat split; congruence). split; [exact U|]. split; [|vm_compute; congruence].
  destruct (otp_at_code (C:=toy) (L:=toy_laws) xl_totp 89) as (s & E & H); [discriminate|unfold xl_totp; cbn; lia|reflexivity|]. unfold xl_code. rewrite E. exact H.
Qed.
(** A world in which alice is known and types a code that is right. *)
Definition xl_file : fs := {[bs "auth.db" := users_json (Some {[bs "alice" := Some (totp_user (bs "alice") [] (xl_code 59) xl_totp)]})]}.
Example C73_nonvacuous :
  let w := xl_w xl_file [bs "alice"; xl_code 89; []] [] 89 [] in
  disk_ok w /\ text_input (wIn w) /\ (exists i, hears (wIn w) [bs "alice"; xl_code 89; []] i) /\
  exists s, on_file (wFs w) (bs "auth.db") s /\ known s (bs "alice") (Some (totp_user (bs "alice") [] (xl_code 59) xl_totp)).
Proof.
  intros w. split; [constructor|]. 
  set (i0 := wIn w).
  destruct (read_line i0) as [r1 i1] eqn:R1. destruct (read_line i1) as [r2 i2] eqn:R2. destruct (read_line i2) as [r3 i3] eqn:R3. destruct (read_line i3) as [r4 i4] eqn:R4.
  assert (r1 = Some (bs "alice") /\ r2 = Some (xl_code 89) /\ r3 = Some [] /\ r4 = None) as (-> & -> & -> & ->).
  { vm_compute in R1. injection R1 as <- <-. vm_compute in R2. injection R2 as <- <-. vm_compute in R3. injection R3 as <- <-. vm_compute in R4. injection R4 as <- _. vm_compute. auto. }
  split; [|split].
  - intros ls i' H. 
    assert (utf8_text (bs "alice") /\ utf8_text (xl_code 89) /\ utf8_text []) as (T1 & T2 & T3).
    { split_and!; apply ascii_text; vm_compute; repeat constructor. }
    clear - H R1 R2 R3 R4 T1 T2 T3. revert R2 T2. generalize (xl_code 89). clearbody i0. intros cd R2 T2.
    inversion H as [|? l1 j1 ls1 ? E1 H1]; subst; [constructor|]. rewrite R1 in E1. injection E1 as <- <-. constructor; [exact T1|].
    inversion H1 as [|? l2 j2 ls2 ? E2 H2]; subst; [constructor|]. rewrite R2 in E2. injection E2 as <- <-. constructor; [exact T2|].
    inversion H2 as [|? l3 j3 ls3 ? E3 H3]; subst; [constructor|]. rewrite R3 in E3. injection E3 as <- <-. constructor; [exact T3|].
    inversion H3 as [|? l4 j4 ls4 ? E4 H4]; subst; [constructor|]. rewrite R4 in E4. discriminate E4.
  - exists i3. econstructor; [exact R1|]. econstructor; [exact R2|]. econstructor; [exact R3|]. constructor.
  - eexists. split; [apply (written_good ∅)|].
    + intros m [= <-]. apply map_Forall_singleton. split; [apply ascii_text; repeat constructor|]. intros u [= <-]. split; [apply ascii_text; repeat constructor|].
      intros a [= <-]. split; [apply ascii_text; repeat constructor|]. split; [constructor|]. apply ascii_text. vm_compute. repeat constructor.
    + eexists. split; [reflexivity|]. rewrite lookup_singleton. reflexivity.
Qed.
(** Passwords: with white space around it, never; and a second registration replaces the first. *)
Example C73_passwords :
  xl_done (xl_run (bs "register") xl_alice [bs "bob"; bs "password"] [Some (bs "pw")] 60 []) (fun w =>
    bool_decide (wOut w = bs "registered bob" ++ [x0a]) &&
    xl_done (xl_run (bs "run") (wFs w) [bs "bob"; bs "pw"; bs "bob"; bs "Pw"; bs "bob"; bs "  pw "; bs "alice"; bs "pw"; []] [] 99 []) (fun w => bool_decide (wOut w = xl_yes ++ xl_no ++ xl_yes ++ xl_no))) &&
  xl_done (xl_run (bs "register") xl_alice [bs "alice"; bs "password"] [Some (bs " pw")] 60 []) (fun w =>
    xl_done (xl_run (bs "run") (wFs w) [bs "alice"; bs " pw"; bs "alice"; bs "pw"; bs "alice"; xl_code 89; []] [] 89 []) (fun w => bool_decide (wOut w = xl_no ++ xl_no ++ xl_no))) = true.
Proof. vm_compute. reflexivity. Qed.
(** Names that cannot be used, files that hold null, and writes that fail. *)
Example C73_faults :
  xl_done (xl_run (bs "register") ∅ [[xff]; bs "password"] [Some (bs "pw")] 60 []) (fun w =>
    xl_done (xl_run (bs "run") (wFs w) [[xff]; bs "pw"; []] [] 99 []) (fun w => bool_decide (wOut w = xl_no))) &&
  xl_crashes (xl_run (bs "register") {[bs "auth.db" := bs "null"]} [bs "bob"; bs "password"] [Some (bs "pw")] 60 []) &&
  xl_done (xl_run (bs "run") {[bs "auth.db" := bs "null"]} [bs "bob"; bs "pw"; []] [] 60 []) (fun w => bool_decide (wOut w = xl_no)) &&
  xl_crashes (xl_run (bs "run") {[bs "auth.db" := bs "{""bob"": null}"]} [bs "bob"; bs "pw"; []] [] 60 []) &&
  match xl_run (bs "run") xl_alice [bs "alice"; xl_code 89; []] [] 89 [WPartial 40] with
  | Fail w => xl_fails (xl_run (bs "run") (wFs w) [[]] [] 89 []) | _ => false
  end = true.
Proof. vm_compute. reflexivity. Qed.


Example C73_damaged_nonvacuous : forall s, ~ on_file {[bs "u" := bs "{"]} (bs "u") s.
Proof.
  intros s [[E _]|(d & j & E & J & _)]; rewrite lookup_singleton in E; [discriminate|]. injection E as <-.
  apply parse_json_exact in J. vm_compute in J. discriminate.
Qed.

(** Property C75: what the commands do with a command line. *)
From Verif Require Export MainsFacts.
From Verif Require Import CmdSecrets CmdJournal CmdOtp CmdCli Fcrypt Login Passcrypt KeySrv SpecCmd Toy ToyAuth PropsSecretsCmd.
From Verif Require Import FcryptLine.
From Verif Require Import Mains SpecMains SpecFcryptLine.
Local Open Scope Z_scope.

(** C75. A line is read in one way; what the options set, and what becomes of a line that
    is not in order. *)
Theorem C75_one_reading :
  forall d o args set rest set' rest',
    line_sets d o args set rest -> line_sets d o args set' rest' -> set = set' /\ rest = rest'.
Proof. exact @line_det. Qed.
Print Assumptions C75_one_reading.

Theorem C75_no_help :
  forall d o args set rest,
    line_sets d o args set rest -> ~ asks_help d o args.
Proof. exact @help_apart. Qed.
Print Assumptions C75_no_help.

Theorem C75_secrets :
  forall (C : Crypto) n home args w set rest,
    line_sets no_duration secrets_opts args set rest ->
    secrets_command n home args w =
      if on set (bs "V") then Done tt (w_print w (bs "secrets version 1.1.0" ++ [x0a])) else
      secrets_main n (mode set) (secrets_options set) (given set (bs "f") (fjoin home (bs ".secrets.db")))
        (SCfg rest (on set (bs "x")) (on set (bs "w")) (on set (bs "m"))) w.
Proof. exact @secrets_line. Qed.
Print Assumptions C75_secrets.

Theorem C75_secrets_help :
  forall (C : Crypto) n home args w,
    asks_help no_duration secrets_opts args -> secrets_command n home args w = Done tt w.
Proof. exact @secrets_helps. Qed.
Print Assumptions C75_secrets_help.

Theorem C75_secrets_refuses :
  forall (C : Crypto) n home args w,
    ~ asks_help no_duration secrets_opts args -> (forall set rest, ~ line_sets no_duration secrets_opts args set rest) ->
    secrets_command n home args w = Fail w.
Proof. exact @secrets_refuses. Qed.
Print Assumptions C75_secrets_refuses.

Theorem C75_secrets_files :
  forall (C : Crypto) n home args w w' p,
    ends (secrets_command n home args w) w' -> wFs w' !! p <> wFs w !! p ->
    exists set rest, line_sets no_duration secrets_opts args set rest /\ on set (bs "V") = false /\
      ((p = given set (bs "f") (fjoin home (bs ".secrets.db")) /\ secrets_writes set) \/ (on set (bs "export") = true /\ head rest = Some p)).
Proof. exact @secrets_files. Qed.
Print Assumptions C75_secrets_files.

Theorem C75_secrets_init_wins :
  forall (C : Crypto) n home args w set rest,
    line_sets no_duration secrets_opts args set rest -> on set (bs "V") = false -> on set (bs "init") = true ->
    secrets_command n home args w = init_store (given set (bs "f") (fjoin home (bs ".secrets.db"))) (mode set) w.
Proof. exact @secrets_init. Qed.
Print Assumptions C75_secrets_init_wins.

Theorem C75_late_option_refuted :
  forall (C : Crypto) n home label other w w',
    no_option label -> ends (secrets_command n home [bs "-s"; label; bs "-f"; other] w) w' ->
    only_changes (fjoin home (bs ".secrets.db")) (wFs w) (wFs w').
Proof. exact @secrets_late. Qed.
Print Assumptions C75_late_option_refuted.

Theorem C75_secrets_order :
  forall (C : Crypto) n home args1 args2 set1 set2 rest w,
    line_sets no_duration secrets_opts args1 set1 rest -> line_sets no_duration secrets_opts args2 set2 rest -> NoDup (map fst set1) -> set1 ≡ₚ set2 ->
    secrets_command n home args1 w = secrets_command n home args2 w.
Proof. exact @secrets_order. Qed.
Print Assumptions C75_secrets_order.

Theorem C75_journal :
  forall (C : Crypto) ed fmt perm home editor args w set rest,
    line_sets no_duration journal_opts args set rest ->
    journal_command ed fmt perm home editor args w =
      if on set (bs "V") then Done tt (w_print w (bs "journal version 1.1.0" ++ [x0a])) else
      journal_main (mode set) (on set (bs "init")) (on set (bs "e")) (on set (bs "l")) (on set (bs "w"))
        (given set (bs "f") (fjoin home (bs ".cu_journal"))) (JCfg rest (ed (given set (bs "editor") editor)) fmt perm) w.
Proof. exact @journal_line. Qed.
Print Assumptions C75_journal.

Theorem C75_journal_help :
  forall (C : Crypto) ed fmt perm home editor args w,
    asks_help no_duration journal_opts args -> journal_command ed fmt perm home editor args w = Done tt w.
Proof. exact @journal_helps. Qed.
Print Assumptions C75_journal_help.

Theorem C75_journal_refuses :
  forall (C : Crypto) ed fmt perm home editor args w,
    ~ asks_help no_duration journal_opts args -> (forall set rest, ~ line_sets no_duration journal_opts args set rest) ->
    journal_command ed fmt perm home editor args w = Fail w.
Proof. exact @journal_refuses. Qed.
Print Assumptions C75_journal_refuses.

Theorem C75_journal_files :
  forall (C : Crypto) ed fmt perm home editor args w w' p,
    ends (journal_command ed fmt perm home editor args w) w' -> wFs w' !! p <> wFs w !! p ->
    exists set rest, line_sets no_duration journal_opts args set rest /\ on set (bs "V") = false /\ p = given set (bs "f") (fjoin home (bs ".cu_journal")) /\
      (on set (bs "init") = true \/ on set (bs "e") = true \/ (on set (bs "w") = true /\ on set (bs "l") = false)).
Proof. exact @journal_files. Qed.
Print Assumptions C75_journal_files.

Theorem C75_otpc :
  forall (C : Crypto) F home args w set rest,
    line_sets no_duration otpc_opts args set rest ->
    otpc_command F home args w =
      if on set (bs "V") then Done tt (w_print w (bs "otpc version 1.1.0" ++ [x0a])) else
      otpc_main F (mode set) (on set (bs "init")) (on set (bs "s")) (on set (bs "qr"))
        (given set (bs "f") (fjoin home (bs ".otpc.db"))) (given set (bs "t") []) rest w.
Proof. exact @otpc_line. Qed.
Print Assumptions C75_otpc.

Theorem C75_otpc_help :
  forall (C : Crypto) F home args w,
    asks_help no_duration otpc_opts args -> otpc_command F home args w = Done tt w.
Proof. exact @otpc_helps. Qed.
Print Assumptions C75_otpc_help.

Theorem C75_otpc_refuses :
  forall (C : Crypto) F home args w,
    ~ asks_help no_duration otpc_opts args -> (forall set rest, ~ line_sets no_duration otpc_opts args set rest) ->
    otpc_command F home args w = Fail w.
Proof. exact @otpc_refuses. Qed.
Print Assumptions C75_otpc_refuses.

Theorem C75_otpc_files :
  forall (C : Crypto) F home args w w' p,
    ends (otpc_command F home args w) w' -> wFs w' !! p <> wFs w !! p ->
    exists set rest, line_sets no_duration otpc_opts args set rest /\ on set (bs "V") = false /\
      if negb (on set (bs "init")) && negb (on set (bs "s")) && on set (bs "qr") then nth 1 rest [] = p
      else p = given set (bs "f") (fjoin home (bs ".otpc.db")).
Proof. exact @otpc_files. Qed.
Print Assumptions C75_otpc_files.

Theorem C75_fcrypt :
  forall (C : Crypto) n o home args w set rest,
    line_sets no_duration fcrypt_opts args set rest ->
    fcrypt_command n o home args w = fc_main n o (fcrypt_options home set rest) w.
Proof. exact @fcrypt_line. Qed.
Print Assumptions C75_fcrypt.

Theorem C75_fcrypt_help :
  forall (C : Crypto) n o home args w,
    asks_help no_duration fcrypt_opts args -> fcrypt_command n o home args w = Done RNone w.
Proof. exact @fcrypt_helps. Qed.
Print Assumptions C75_fcrypt_help.

Theorem C75_fcrypt_refuses :
  forall (C : Crypto) n o home args w,
    ~ asks_help no_duration fcrypt_opts args -> (forall set rest, ~ line_sets no_duration fcrypt_opts args set rest) ->
    fcrypt_command n o home args w = Fail w.
Proof. exact @fcrypt_refuses. Qed.
Print Assumptions C75_fcrypt_refuses.

Theorem C75_fcrypt_verbs :
  forall home set rest vs k,
    only_verbs set vs -> (vs, k) ∈ fcrypt_does (given set (bs "l") (bs "self")) ->
    chosen (fcrypt_options home set rest) = Some (k, match k with FCryptSign => true | _ => on set (bs "a") end).
Proof. exact @fcr_does. Qed.
Print Assumptions C75_fcrypt_verbs.

Theorem C75_passcrypt :
  forall (C : Crypto) G args w set rest,
    line_sets no_duration passcrypt_opts args set rest ->
    passcrypt_command G args w =
      if on set (bs "V") then (true, q_print w (bs "passcrypt version 1.1.0" ++ [x0a])) else
      if on set (bs "u") || on set (bs "l") then
        match rest with
        | [arch] => if on set (bs "u") then pc_unpack G arch (given set (bs "o") (bs ".")) w else pc_list arch w
        | _ => (false, w)
        end
      else pc_pack G rest (on set (bs "a")) (given set (bs "f") (bs "passcrypt.enc")) w.
Proof. exact @passcrypt_line. Qed.
Print Assumptions C75_passcrypt.

Theorem C75_passcrypt_help :
  forall (C : Crypto) G args w,
    asks_help no_duration passcrypt_opts args -> passcrypt_command G args w = (true, w).
Proof. exact @passcrypt_helps. Qed.
Print Assumptions C75_passcrypt_help.

Theorem C75_passcrypt_refuses :
  forall (C : Crypto) G args w,
    ~ asks_help no_duration passcrypt_opts args -> (forall set rest, ~ line_sets no_duration passcrypt_opts args set rest) ->
    passcrypt_command G args w = (false, w).
Proof. exact @passcrypt_refuses. Qed.
Print Assumptions C75_passcrypt_refuses.

Theorem C75_login :
  forall (C : Crypto) (A : AuthLib) n qr args w set rest,
    line_sets no_duration login_opts args set rest ->
    login_command n qr args w = login_main n qr (given set (bs "f") (bs "store.json")) rest w.
Proof. exact @login_line. Qed.
Print Assumptions C75_login.

Theorem C75_login_help :
  forall (C : Crypto) (A : AuthLib) n qr args w,
    asks_help no_duration login_opts args -> login_command n qr args w = Done None w.
Proof. exact @login_helps. Qed.
Print Assumptions C75_login_help.

Theorem C75_login_refuses :
  forall (C : Crypto) (A : AuthLib) n qr args w,
    ~ asks_help no_duration login_opts args -> (forall set rest, ~ line_sets no_duration login_opts args set rest) ->
    login_command n qr args w = Fail w.
Proof. exact @login_refuses. Qed.
Print Assumptions C75_login_refuses.

Theorem C75_migrate :
  forall (C : Crypto) ans args f g rest,
    leaves args rest ->
    migrate_command ans args f g = migrate_main (imap (fun i p => (p, fst (ans i), snd (ans i))) rest) f g.
Proof. exact @migrate_line. Qed.
Print Assumptions C75_migrate.

Theorem C75_migrate_help :
  forall (C : Crypto) ans args f g,
    asks_help no_duration no_opts args -> migrate_command ans args f g = (Running, f, g).
Proof. exact @migrate_helps. Qed.
Print Assumptions C75_migrate_help.

Theorem C75_migrate_refuses :
  forall (C : Crypto) ans args f g,
    ~ asks_help no_duration no_opts args -> (forall rest, ~ leaves args rest) -> migrate_command ans args f g = (Exit1, f, g).
Proof. exact @migrate_refuses. Qed.
Print Assumptions C75_migrate_refuses.

Theorem C75_keysrv :
  forall (C : Crypto) args f pass n1 n2 n3 g w set rest,
    line_sets no_duration keysrv_opts args set rest ->
    keysrv_command args f pass n1 n2 n3 g w = serve_load f (given set (bs "f") (bs "keystore.db")) pass n1 n2 n3 g w.
Proof. exact @keysrv_line. Qed.
Print Assumptions C75_keysrv.

Theorem C75_keysrv_else :
  forall (C : Crypto) args f pass n1 n2 n3 g w,
    (forall set rest, ~ line_sets no_duration keysrv_opts args set rest) ->
    keysrv_command args f pass n1 n2 n3 g w = Ret (None, f, g).
Proof. exact @keysrv_else. Qed.
Print Assumptions C75_keysrv_else.

Theorem C75_cli :
  forall (C : Crypto) home args w path m t c,
    cli_command home args w = Some (path, m, t, c) <->
    exists set rest v w', line_sets (fun v => is_Some (parse_duration v)) cli_opts args set rest /\ path = given set (bs "f") (fjoin home (bs ".secrets.db")) /\
      m = mode set /\ timeout set t /\ t <= 43200 * 1000000000 /\ cli_open path m w = Some (v, w') /\ c = cli_start v w'.
Proof. exact @cli_line. Qed.
Print Assumptions C75_cli.

Theorem C75_duration :
  forall s neg l,
    duration s neg l -> sum_of l <= 2 ^ 63 - (if neg then 0 else 1) -> parse_duration s = Some (if neg then - sum_of l else sum_of l).
Proof. exact @duration_ok. Qed.
Print Assumptions C75_duration.

Theorem C75_duration_reads :
  forall s d,
    x2e ∉ s -> parse_duration s = Some d ->
    exists neg l, duration s neg l /\ Forall (fun x => x <= 2 ^ 63) l /\ (if neg then - d else d) = sum_of l mod 2 ^ 64 /\ - 2 ^ 63 <= d < 2 ^ 63.
Proof. exact @duration_inv. Qed.
Print Assumptions C75_duration_reads.

Theorem C75_duration_wraps_refuted :
  forall s l,
    s <> [] -> amounts s l -> sum_of l < 2 ^ 63 ->
    parse_duration (bs "9223372036854775808ns9223372036854775808ns" ++ s) = Some (sum_of l).
Proof. exact @duration_wraps. Qed.
Print Assumptions C75_duration_wraps_refuted.

(** Non-vacuity. *)
Lemma not_in_dec (c : byte) (l : bytes) : bool_decide (c ∈ l) = false -> c ∉ l.
Proof. apply bool_decide_eq_false. Qed.
Ltac a_dash := split; [first [left; reflexivity|right; reflexivity]|eexists _, _; split; [reflexivity|split; discriminate]].
Definition xf_line : list bytes := [bs "-i"; bs "-f"; bs "f"; bs "--s=T"; bs "--"; bs "web"].
Example C75_line_nonvacuous :
  line_sets no_duration secrets_opts xf_line [(bs "i", bs "true"); (bs "f", bs "f"); (bs "s", bs "T")] [bs "web"] /\
  asks_help no_duration secrets_opts [bs "-l"; bs "--help=x"] /\
  (forall set rest, ~ line_sets no_duration secrets_opts [bs "-q"] set rest) /\ ~ asks_help no_duration secrets_opts [bs "-q"].
Proof.
  split; [|split; [|split]].
  - exists [bs "-i"; bs "-f"; bs "f"; bs "--s=T"], [bs "--"; bs "web"]. split; [reflexivity|]. split; [|constructor].
    apply op_switch; [a_dash|now apply not_in_dec|cbn; set_solver|].
    apply (op_value _ _ (bs "-f") (bs "f")); [a_dash|now apply not_in_dec|cbn; set_solver|right; left; left|].
    apply (op_equals _ _ (bs "--s=T") (bs "s") (bs "T")); [a_dash|now apply not_in_dec|left; split; [cbn; set_solver|left; cbn; set_solver]|constructor].
  - exists [bs "-l"], [(bs "l", bs "true")], (bs "--help=x"), (bs "help=x"), (bs "help"), []. split; [reflexivity|].
    split; [apply op_switch; [a_dash|now apply not_in_dec|cbn; set_solver|constructor]|]. split; [a_dash|].
    split; [right; now exists (bs "x")|]. split; [now right|]. unfold defined. cbn. set_solver.
  - intros set rest Hl. assert (P : parse_flags no_times (secrets_formal []) [bs "-q"] = Refused) by (vm_compute; reflexivity).
    rewrite (MainsFacts.taken _ _ (secrets_agree []) eq_refl _ _ _ Hl) in P. discriminate.
  - intros Hh. assert (P : parse_flags no_times (secrets_formal []) [bs "-q"] = Refused) by (vm_compute; reflexivity).
    rewrite (MainsFacts.taken_help _ _ (secrets_agree []) eq_refl _ Hh) in P. discriminate.
Qed.
(** -s stores under the label in the file of -f, in front of it but not after it; -init
    comes before it. *)
Example C75_secrets_nonvacuous :
  xs_view (bs "pw") (secrets_command (H:=toy) 9 (bs "/h") xf_line (xs_world [] [bs "pw"; bs "new"])) =
    Some [(bs "web", (7, Some (bs "new"), [])); (bs "mail", (3, Some (bs "s1"), [(bs "user", Some (bs "kyle"))]))] /\
  xs_view (bs "n") (secrets_command (H:=toy) 9 (bs "/h") (bs "-init" :: xf_line) (xs_world [] [bs "n"; bs "new"])) = Some [] /\
  (match secrets_command (H:=toy) 9 (bs "/h") [bs "-i"; bs "-s"; bs "web"; bs "-f"; bs "f"] (xs_world [] [bs "pw"; bs "new"]) with
   | Fail w => bool_decide (wFs w !! xs_path = Some (xs_file xs_store)) | _ => false end) = true /\
  (match secrets_command (H:=toy) 9 (bs "/h") [bs "-V=0"; bs "-V"] (xs_world [] []) with
   | Done _ w => bool_decide (wOut w = bs "secrets version 1.1.0" ++ [x0a]) | _ => false end) = true.
Proof. vm_compute. repeat split. Qed.
Example C75_duration_nonvacuous :
  duration (bs "-1h2m") true [3600000000000; 120000000000] /\ parse_duration (bs "-1h2m") = Some (-3720000000000) /\
  parse_duration (bs "1.5s") = Some 1500000000 /\ parse_duration (bs "10") = None /\ parse_duration (bs "9223372036854775808ns") = None /\
  parse_duration (bs "9223372036854775808ns9223372036854775808ns1s") = Some 1000000000.
Proof.
  split; [|vm_compute; repeat split].
  exists (bs "-"), (bs "1h2m"). split; [reflexivity|]. split; [now right|]. right. split; [discriminate|].
  apply (am_cons (bs "1") (bs "h") 3600000000000 (bs "2m") [120000000000]); [discriminate|repeat constructor; vm_compute; discriminate|vm_compute; set_solver|].
  apply (am_cons (bs "2") (bs "m") 60000000000 [] []); [discriminate|repeat constructor; vm_compute; discriminate|vm_compute; set_solver|constructor].
Qed.
(** A session of secretscli that begins, and one refused for its timeout. *)
Example C75_cli_nonvacuous :
  (match cli_command (H:=toy) (bs "/h") [bs "-i"; bs "-t=12h"; bs "-f"; bs "f"] (xs_world [] [bs "pw"]) with
   | Some (p, m, t, _) => bool_decide (p = bs "f") && (m =? 1) && (t =? 43200000000000) | None => false end) = true /\
  (match cli_command (H:=toy) (bs "/h") [bs "-i"; bs "-t=12h1ns"; bs "-f"; bs "f"] (xs_world [] [bs "pw"]) with Some _ => false | None => true end) = true.
Proof. vm_compute. repeat split. Qed.

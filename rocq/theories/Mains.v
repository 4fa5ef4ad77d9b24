(** The commands from their command lines: the options each [main] defines, and what it
    does with them. [home] and [editor] are the environment variables HOME and EDITOR.
    Usage texts and messages are not modelled. No proofs here. *)
From Verif Require Export Flag Duration Path.
From Verif Require Import CmdSecrets CmdJournal CmdOtp CmdCli Fcrypt Login Passcrypt KeySrv.
Local Open Scope Z_scope.

Definition no_times (_ : bytes) : option Z := None.
Definition formal (l : list (bytes * fval)) : fset := list_to_map l.
(** [util.Version] and [util.VersionString], common/util/util.go:18-29. *)
Definition version : bytes := bs "1.1.0".
(** The mode of scrypt: cmd/secrets/secrets.go:419-422, cmd/journal/journal.go:314-317,
    cmd/otpc/otpc.go:418-421, cmd/secretscli/secretscli.go:163-166. *)
Definition mode_flag (f : fset) : Z := if bool_flag f (bs "i") then ScryptInteractive else ScryptStandard.

(** Running a command on its options. *)
Definition with_flags {A} (p : parsed) (a : A) (k : fset -> list bytes -> world -> res A) (w : world) : res A :=
  match p with Parsed f rest => k f rest w | Helped => Done a w | Refused => Fail w end.

(** *** secrets, cmd/secrets/secrets.go:395-504 *)
Definition secrets_formal (home : bytes) : fset := formal
  [(bs "init", BoolF false); (bs "merge", BoolF false); (bs "export", BoolF false); (bs "import", BoolF false);
   (bs "multi", BoolF false); (bs "c", BoolF false); (bs "f", TextF (fjoin home (bs ".secrets.db")));
   (bs "l", BoolF false); (bs "m", BoolF false); (bs "r", BoolF false); (bs "s", BoolF false);
   (bs "x", BoolF false); (bs "w", BoolF false); (bs "V", BoolF false); (bs "i", BoolF false)].
Definition secrets_flags (f : fset) : flags :=
  Flags (bool_flag f (bs "init")) (bool_flag f (bs "merge")) (bool_flag f (bs "export")) (bool_flag f (bs "import"))
    (bool_flag f (bs "multi")) (bool_flag f (bs "c")) (bool_flag f (bs "l")) (bool_flag f (bs "r")) (bool_flag f (bs "s")).
Definition secrets_command `{Crypto} (n : nat) (home : bytes) (args : list bytes) (w : world) : res unit :=
  with_flags (parse_flags no_times (secrets_formal home) args) tt (fun f rest w =>
    if bool_flag f (bs "V") then Done tt (w_print w (bs "secrets version " ++ version ++ [x0a])) else
    secrets_main n (mode_flag f) (secrets_flags f) (text_flag f (bs "f"))
      (SCfg rest (bool_flag f (bs "x")) (bool_flag f (bs "w")) (bool_flag f (bs "m"))) w) w.

(** *** journal, cmd/journal/journal.go:296-371: [ed] is the program named, [fmt] and
    [perm] are as in [jcfg] *)
Definition journal_formal (home editor : bytes) : fset := formal
  [(bs "init", BoolF false); (bs "editor", TextF editor); (bs "e", BoolF false); (bs "f", TextF (fjoin home (bs ".cu_journal")));
   (bs "l", BoolF false); (bs "w", BoolF false); (bs "V", BoolF false); (bs "i", BoolF false)].
Definition journal_command `{Crypto} (ed : bytes -> bytes -> option bytes) (fmt : Z -> bytes) perm (home editor : bytes) (args : list bytes) (w : world) : res unit :=
  with_flags (parse_flags no_times (journal_formal home editor) args) tt (fun f rest w =>
    if bool_flag f (bs "V") then Done tt (w_print w (bs "journal version " ++ version ++ [x0a])) else
    journal_main (mode_flag f) (bool_flag f (bs "init")) (bool_flag f (bs "e")) (bool_flag f (bs "l")) (bool_flag f (bs "w"))
      (text_flag f (bs "f")) (JCfg rest (ed (text_flag f (bs "editor"))) fmt perm) w) w.

(** *** otpc, cmd/otpc/otpc.go:402-473 *)
Definition otpc_formal (home : bytes) : fset := formal
  [(bs "init", BoolF false); (bs "s", BoolF false); (bs "f", TextF (fjoin home (bs ".otpc.db"))); (bs "t", TextF []);
   (bs "qr", BoolF false); (bs "V", BoolF false); (bs "i", BoolF false)].
Definition otpc_command `{Crypto} (F : twofactor) (home : bytes) (args : list bytes) (w : world) : res unit :=
  with_flags (parse_flags no_times (otpc_formal home) args) tt (fun f rest w =>
    if bool_flag f (bs "V") then Done tt (w_print w (bs "otpc version " ++ version ++ [x0a])) else
    otpc_main F (mode_flag f) (bool_flag f (bs "init")) (bool_flag f (bs "s")) (bool_flag f (bs "qr"))
      (text_flag f (bs "f")) (text_flag f (bs "t")) rest w) w.

(** *** fcrypt, exp/fcrypt/fcrypt.go:493-593 *)
Definition fcrypt_formal (home : bytes) : fset := formal
  [(bs "check", BoolF false); (bs "export", BoolF false); (bs "import", BoolF false); (bs "a", BoolF false);
   (bs "d", BoolF false); (bs "e", BoolF false); (bs "f", TextF (fjoin home (bs ".cukeystore.db"))); (bs "k", BoolF false);
   (bs "l", TextF (bs "self")); (bs "r", BoolF false); (bs "s", BoolF false); (bs "u", BoolF false); (bs "v", BoolF false)].
Definition fcrypt_flags (f : fset) (rest : list bytes) : fflags :=
  FFlags (bool_flag f (bs "check")) (bool_flag f (bs "export")) (bool_flag f (bs "import")) (bool_flag f (bs "a"))
    (bool_flag f (bs "d")) (bool_flag f (bs "e")) (text_flag f (bs "f")) (bool_flag f (bs "k")) (text_flag f (bs "l"))
    (bool_flag f (bs "r")) (bool_flag f (bs "s")) (bool_flag f (bs "u")) (bool_flag f (bs "v")) rest.
Definition fcrypt_command `{Crypto} (n : nat) (o : forders) (home : bytes) (args : list bytes) (w : world) : res report :=
  with_flags (parse_flags no_times (fcrypt_formal home) args) RNone (fun f rest w => fc_main n o (fcrypt_flags f rest) w) w.

(** *** login, common/auth/examples/login/login.go:159-183 *)
Definition login_formal : fset := formal [(bs "f", TextF (bs "store.json"))].
Definition login_command `{Crypto} `{AuthLib} (n : nat) (qr : totp -> option bytes) (args : list bytes) (w : world) : res lstore :=
  with_flags (parse_flags no_times login_formal args) None (fun f rest w => login_main n qr (text_flag f (bs "f")) rest w) w.

(** *** passcrypt, cmd/passcrypt/passcrypt.go:201-339: [true] is exit status 0. What -v
    adds to the output is in [Verbose]. *)
Definition passcrypt_formal : fset := formal
  [(bs "a", BoolF false); (bs "o", TextF (bs ".")); (bs "f", TextF (bs "passcrypt.enc")); (bs "l", BoolF false);
   (bs "u", BoolF false); (bs "v", BoolF false); (bs "V", BoolF false)].
Definition passcrypt_command `{Crypto} (G : gzip) (args : list bytes) (w : pworld) : bool * pworld :=
  match parse_flags no_times passcrypt_formal args with
  | Helped => (true, w)
  | Refused => (false, w)
  | Parsed f rest =>
      if bool_flag f (bs "V") then (true, q_print w (bs "passcrypt version " ++ version ++ [x0a])) else
      if bool_flag f (bs "u") || bool_flag f (bs "l") then
        match rest with
        | [arch] => if bool_flag f (bs "u") then pc_unpack G arch (text_flag f (bs "o")) w else pc_list arch w
        | _ => (false, w)
        end
      else pc_pack G rest (bool_flag f (bs "a")) (text_flag f (bs "f")) w
  end.

(** *** secretscli, cmd/secretscli/secretscli.go:150-191: the file, the mode and the
    timeout the session begins with, if it gets that far *)
Definition minute : Z := 60 * 1000000000.
Definition cli_formal (home : bytes) : fset := formal
  [(bs "f", TextF (fjoin home (bs ".secrets.db"))); (bs "t", TimeF (5 * minute)); (bs "i", BoolF false)].
Definition cli_command `{Crypto} (home : bytes) (args : list bytes) (w : world) : option (bytes * Z * Z * cli) :=
  match parse_flags parse_duration (cli_formal home) args with
  | Parsed f _ =>
      let path := text_flag f (bs "f") in
      if decide (time_flag f (bs "t") > 720 * minute) then None else
      match cli_open path (mode_flag f) w with
      | Some (v, w) => Some (path, mode_flag f, time_flag f (bs "t"), cli_start v w)
      | None => None
      end
  | _ => None
  end.

(** *** migrate-store, cmd/migrate-store/migrate-store.go:39-49: no options; [ans] is what
    is typed and what the disk does for each argument *)
Definition migrate_command `{Crypto} (ans : nat -> option bytes * wfate) (args : list bytes) (f : fs) (g : rng) : status * fs * rng :=
  match parse_flags no_times ∅ args with
  | Parsed _ rest => migrate_main (imap (fun i p => (p, fst (ans i), snd (ans i))) rest) f g
  | Helped => (Running, f, g)
  | Refused => (Exit1, f, g)
  end.

(** *** keysrv, exp/keysrv/keysrv.go:295-303: the key store is loaded *)
Definition keysrv_formal : fset := formal
  [(bs "a", TextF (bs "127.0.0.1:8443")); (bs "f", TextF (bs "keystore.db")); (bs "k", TextF (bs "server.key")); (bs "c", TextF (bs "server.pem"))].
Definition keysrv_command `{Crypto} (args : list bytes) (f : fs) (pass : option bytes) (n1 n2 n3 : Z) (g : rng) (w : wfate) : outcome (option kstore * fs * rng) :=
  match parse_flags no_times keysrv_formal args with
  | Parsed p _ => serve_load f (text_flag p (bs "f")) pass n1 n2 n3 g w
  | _ => Ret (None, f, g)
  end.

(** Specification vocabulary for the commands' options, from their usage texts and READMEs. *)
From Verif Require Import CmdSecrets Fcrypt Path Duration.
From Verif Require Export SpecFlag.
Local Open Scope Z_scope.

Definition no_duration (_ : bytes) : Prop := False.
Definition secrets_opts : optset := Opts
  [bs "init"; bs "merge"; bs "export"; bs "import"; bs "multi"; bs "c"; bs "l"; bs "m"; bs "r"; bs "s"; bs "x"; bs "w"; bs "V"; bs "i"] [bs "f"] [].
Definition journal_opts : optset := Opts [bs "init"; bs "e"; bs "l"; bs "w"; bs "V"; bs "i"] [bs "editor"; bs "f"] [].
Definition otpc_opts : optset := Opts [bs "init"; bs "s"; bs "qr"; bs "V"; bs "i"] [bs "f"; bs "t"] [].
Definition fcrypt_opts : optset := Opts
  [bs "check"; bs "export"; bs "import"; bs "a"; bs "d"; bs "e"; bs "k"; bs "r"; bs "s"; bs "u"; bs "v"] [bs "f"; bs "l"] [].
Definition login_opts : optset := Opts [] [bs "f"] [].
Definition passcrypt_opts : optset := Opts [bs "a"; bs "l"; bs "u"; bs "v"; bs "V"] [bs "o"; bs "f"] [].
Definition cli_opts : optset := Opts [bs "i"] [bs "f"] [bs "t"].
Definition keysrv_opts : optset := Opts [] [bs "a"; bs "f"; bs "k"; bs "c"] [].
Definition no_opts : optset := Opts [] [] [].

(** Key derivation: 0 is the standard mode, 1 the interactive one. *)
Definition mode (set : list (bytes * bytes)) : Z := if on set (bs "i") then 1 else 0.

(** *** Durations, from the documentation of [time.ParseDuration], without a decimal
    point: a sign, then numbers with units *)
Definition duration_units : list (bytes * Z) :=
  [(bs "ns", 1); (bs "us", 1000); ([xc2; xb5; x73], 1000); ([xce; xbc; x73], 1000); (bs "ms", 1000000); (bs "s", 1000000000);
   (bs "m", 60000000000); (bs "h", 3600000000000)].
Definition numeral (c : byte) : Prop := 48 <= bz c <= 57.
Definition number (ds : bytes) : Z := fold_left (fun a c => a * 10 + (bz c - 48)) ds 0.
(** The numbers of nanoseconds that are added up. *)
Inductive amounts : bytes -> list Z -> Prop :=
  | am_nil : amounts [] []
  | am_cons ds u n s l : ds <> [] -> Forall numeral ds -> (u, n) ∈ duration_units -> amounts s l -> amounts (ds ++ u ++ s) (number ds * n :: l).
Definition sum_of (l : list Z) : Z := fold_right Z.add 0 l.
(** [duration s neg l]: [s] is a sign and amounts. A lone zero needs no unit. *)
Definition duration (s : bytes) (neg : bool) (l : list Z) : Prop :=
  exists sign body, s = sign ++ body /\ ((sign = [] \/ sign = bs "+") /\ neg = false \/ sign = bs "-" /\ neg = true) /\
    ((body = bs "0" /\ l = []) \/ (body <> [] /\ amounts body l)).

(** What is on, as the records of the models have it. *)
Definition secrets_options (set : list (bytes * bytes)) : flags :=
  Flags (on set (bs "init")) (on set (bs "merge")) (on set (bs "export")) (on set (bs "import"))
    (on set (bs "multi")) (on set (bs "c")) (on set (bs "l")) (on set (bs "r")) (on set (bs "s")).
Definition fcrypt_options (home : bytes) (set : list (bytes * bytes)) (rest : list bytes) : fflags :=
  FFlags (on set (bs "check")) (on set (bs "export")) (on set (bs "import")) (on set (bs "a")) (on set (bs "d")) (on set (bs "e"))
    (given set (bs "f") (fjoin home (bs ".cukeystore.db"))) (on set (bs "k")) (given set (bs "l") (bs "self"))
    (on set (bs "r")) (on set (bs "s")) (on set (bs "u")) (on set (bs "v")) rest.
(** The timeout of secretscli: five minutes unless -t gives another. *)
Definition timeout (set : list (bytes * bytes)) (t : Z) : Prop :=
  match last_value set (bs "t") with Some v => parse_duration v = Some t | None => t = 300 * 1000000000 end.
(** An option of secrets that changes the store is on. *)
Definition secrets_writes (set : list (bytes * bytes)) : Prop :=
  exists name, on set name = true /\ name ∈ [bs "init"; bs "c"; bs "s"; bs "r"; bs "multi"; bs "merge"; bs "import"].

(** The surroundings of a command: files, terminal, clock, random source. No
    proofs here. *)
From Verif Require Export SecretStore ReadLine.
Local Open Scope Z_scope.

(** [wFs] the files; [wIn] standard input; [wPw] what the password prompt will
    return, call by call ([None]: an error; also when the list is used up); [wClk]
    what [time.Now().Unix()] will return, call by call (0 when used up); [wRng] the
    random source; [wFate] what the disk does with each write (succeeds when used
    up); [wOut] standard output. Prompts, messages and standard error are not
    represented. *)
Record world := World {
  wFs : fs; wIn : stdin; wPw : list (option bytes); wClk : list Z; wRng : rng; wFate : list wfate; wOut : bytes }.

Definition set_fs (w : world) (f : fs) : world := World f (wIn w) (wPw w) (wClk w) (wRng w) (wFate w) (wOut w).
Definition set_rng (w : world) (g : rng) : world := World (wFs w) (wIn w) (wPw w) (wClk w) g (wFate w) (wOut w).

(** [util.ReadLine]. *)
Definition w_line (w : world) : option bytes * world :=
  let '(r, i) := read_line (wIn w) in (r, World (wFs w) i (wPw w) (wClk w) (wRng w) (wFate w) (wOut w)).
(** [util.PassPrompt], [readpass.PasswordPromptBytes] (common/util/util.go:34). *)
Definition w_pass (w : world) : option bytes * world :=
  match wPw w with
  | [] => (None, w)
  | p :: ps => (p, World (wFs w) (wIn w) ps (wClk w) (wRng w) (wFate w) (wOut w))
  end.
(** [time.Now().Unix()]. *)
Definition w_now (w : world) : Z * world :=
  match wClk w with
  | [] => (0, w)
  | t :: ts => (t, World (wFs w) (wIn w) (wPw w) ts (wRng w) (wFate w) (wOut w))
  end.
(** [ioutil.ReadFile]: the empty path names no file. *)
Definition w_raw_read (w : world) (path : bytes) : option bytes :=
  if decide (path = []) then None else read_file (wFs w) path.
(** [util.ReadFile], common/util/util.go:119-124. *)
Definition w_read (w : world) (path : bytes) : option bytes * world :=
  if decide (path = bs "-") then
    let '(b, i) := read_all (wIn w) in (Some b, World (wFs w) i (wPw w) (wClk w) (wRng w) (wFate w) (wOut w))
  else (w_raw_read w path, w).
(** Writing to standard output. Simplification: it never fails. *)
Definition w_print (w : world) (b : bytes) : world :=
  World (wFs w) (wIn w) (wPw w) (wClk w) (wRng w) (wFate w) (wOut w ++ b).
(** [ioutil.WriteFile]: is the error nil? *)
Definition w_raw_write (w : world) (path data : bytes) : bool * world :=
  if decide (path = []) then (false, w) else
  let '(fate, rest) := match wFate w with [] => (WOk, []) | x :: l => (x, l) end in
  let '(ok, f) := write_file fate (wFs w) path data in
  (ok, World f (wIn w) (wPw w) (wClk w) (wRng w) rest (wOut w)).
(** [util.WriteFile], common/util/util.go:128-134. *)
Definition w_write (w : world) (path data : bytes) : bool * world :=
  if decide (path = bs "-") then (true, w_print w data) else w_raw_write w path data.
(** [util.Exists], common/util/util.go:97-105: the first result. *)
Definition w_exists (w : world) (path : bytes) : bool :=
  negb (bool_decide (path = [])) && fst (exists_ (wFs w) path).

(** How a function of a command ends: with a value; with an error (or a nil
    result or a failing os.Exit); with a panic; or not within the given number of
    rounds. *)
Inductive res (A : Type) :=
  | Done (a : A) (w : world)
  | Fail (w : world)
  | Crash (w : world)
  | Spin.
Arguments Done {A}. Arguments Fail {A}. Arguments Crash {A}. Arguments Spin {A}.

Definition then_ {A B} (r : res A) (k : A -> world -> res B) : res B :=
  match r with Done a w => k a w | Fail w => Fail w | Crash w => Crash w | Spin => Spin end.
Notation "'let*' ( x , w ) := e 'in' k" := (then_ e (fun x w => k))
  (at level 200, x name, w name, k at level 200).
(** A computation of the library, which may panic. *)
Definition lift {A} (o : outcome A) (w : world) : res A :=
  match o with Ret a => Done a w | Panic => Crash w end.

(** [strings.SplitN(line, "=", 2)] with at least two parts, both trimmed. *)
Definition split_meta (line : bytes) : option (bytes * bytes) :=
  match cut [x3d] line with
  | Some (k, v) => Some (trim_space k, trim_space v)
  | None => None
  end.
(** [strings.ToLower] on ASCII letters. The results are only compared with words
    of letters that are the lower case of no other character. *)
Definition lower (b : byte) : byte := if decide (65 <= bz b <= 90) then zb (bz b + 32) else b.
Definition to_lower (s : bytes) : bytes := map lower s.

(** Model of package flag of the standard library (Go 1.23) as the commands use it:
    the default flag set, which leaves the process on an error. No proofs here. *)
From Verif Require Export Pem.
Local Open Scope Z_scope.

(** The value of an option, which also says its kind ([flag.Bool], [flag.String],
    [flag.DurationVar]). *)
Inductive fval := BoolF (b : bool) | TextF (s : bytes) | TimeF (d : Z).
(** The formal options of a flag set and their present values. *)
Notation fset := (gmap bytes fval).
(** How [flag.Parse] ends: with the values and the arguments left; with the usage text
    and exit status 0; with an error and exit status 2. *)
Inductive parsed := Parsed (f : fset) (rest : list bytes) | Helped | Refused.

(** [strconv.ParseBool]. *)
Definition parse_bool (s : bytes) : option bool :=
  if decide (s ∈ [bs "1"; bs "t"; bs "T"; bs "true"; bs "TRUE"; bs "True"]) then Some true
  else if decide (s ∈ [bs "0"; bs "f"; bs "F"; bs "false"; bs "FALSE"; bs "False"]) then Some false
  else None.

(** An argument as [FlagSet.parseOne] sees it: not an option, the end of the options,
    bad syntax, or an option with the value after its first "=". *)
Inductive fword := WArg | WEnd | WBad | WOption (name : bytes) (value : option bytes).
Definition flag_word (s : bytes) : fword :=
  match s with
  | a :: b :: r =>
      if negb (bool_decide (a = x2d)) then WArg else
      if bool_decide (b = x2d) && bool_decide (r = []) then WEnd else
      let name := if decide (b = x2d) then r else b :: r in
      match name with
      | [] => WBad
      | c :: _ =>
          if decide (c = x2d \/ c = x3d) then WBad else
          match cut [x3d] name with
          | Some (n, v) => WOption n (Some v)
          | None => WOption name None
          end
      end
  | _ => WArg
  end.

(** [Value.Set] of an option that takes a value; [dur] is [time.ParseDuration]. *)
Definition set_flag (dur : bytes -> option Z) (k : fval) (v : bytes) : option fval :=
  match k with
  | BoolF _ => BoolF <$> parse_bool v
  | TextF _ => Some (TextF v)
  | TimeF _ => TimeF <$> dur v
  end.

(** [FlagSet.Parse] with its loop around [parseOne]. *)
Fixpoint parse_flags (dur : bytes -> option Z) (f : fset) (args : list bytes) : parsed :=
  match args with
  | [] => Parsed f []
  | s :: rest =>
      match flag_word s with
      | WArg => Parsed f args
      | WEnd => Parsed f rest
      | WBad => Refused
      | WOption name value =>
          match f !! name, value with
          | None, _ => if decide (name = bs "help" \/ name = bs "h") then Helped else Refused
          | Some (BoolF _), None => parse_flags dur (<[name := BoolF true]> f) rest
          | Some k, Some v =>
              match set_flag dur k v with
              | Some x => parse_flags dur (<[name := x]> f) rest
              | None => Refused
              end
          | Some k, None =>
              match rest with
              | [] => Refused
              | v :: rest =>
                  match set_flag dur k v with
                  | Some x => parse_flags dur (<[name := x]> f) rest
                  | None => Refused
                  end
              end
          end
      end
  end.

(** Reading the pointers that [flag.Bool], [flag.String] and [flag.DurationVar] filled. *)
Definition bool_flag (f : fset) (name : bytes) : bool := match f !! name with Some (BoolF b) => b | _ => false end.
Definition text_flag (f : fset) (name : bytes) : bytes := match f !! name with Some (TextF s) => s | _ => [] end.
Definition time_flag (f : fset) (name : bytes) : Z := match f !! name with Some (TimeF d) => d | _ => 0 end.

(** Specification vocabulary for command lines, written from the documentation of
    package flag. *)
From Verif Require Export Bytes.
Local Open Scope Z_scope.

(** The options of a command by the kind of their values. *)
Record optset := Opts { switches : list bytes; texts : list bytes; waits : list bytes }.
Definition defined (o : optset) (name : bytes) : Prop := name ∈ switches o \/ name ∈ texts o \/ name ∈ waits o.

Definition true_words : list bytes := [bs "1"; bs "t"; bs "T"; bs "TRUE"; bs "true"; bs "True"].
Definition false_words : list bytes := [bs "0"; bs "f"; bs "F"; bs "FALSE"; bs "false"; bs "False"].
(** What may be given as the value of an option; [dur] are the texts of durations. *)
Definition acceptable (dur : bytes -> Prop) (o : optset) (name v : bytes) : Prop :=
  (name ∈ switches o /\ (v ∈ true_words \/ v ∈ false_words)) \/ name ∈ texts o \/ (name ∈ waits o /\ dur v).

(** -body and --body mean the same. *)
Definition dashed (s body : bytes) : Prop :=
  (s = x2d :: body \/ s = x2d :: x2d :: body) /\ exists c r, body = c :: r /\ c <> x2d /\ c <> x3d.
(** Arguments that are no options: without a dash in front, or a dash alone. *)
Definition no_option (s : bytes) : Prop := forall c r, s <> x2d :: c :: r.

(** A sequence of options, and what they set in order: -name for a switch, -name=value,
    and -name value for one that is no switch, where the value may be any text. *)
Inductive options (dur : bytes -> Prop) (o : optset) : list bytes -> list (bytes * bytes) -> Prop :=
  | op_none : options dur o [] []
  | op_switch s name l set : dashed s name -> x3d ∉ name -> name ∈ switches o -> options dur o l set ->
      options dur o (s :: l) ((name, bs "true") :: set)
  | op_equals s name v l set : dashed s (name ++ [x3d] ++ v) -> x3d ∉ name -> acceptable dur o name v -> options dur o l set ->
      options dur o (s :: l) ((name, v) :: set)
  | op_value s name v l set : dashed s name -> x3d ∉ name -> name ∉ switches o -> acceptable dur o name v -> options dur o l set ->
      options dur o (s :: v :: l) ((name, v) :: set).
(** What is left after the options: everything from the first argument that is no
    option, or after "--". *)
Inductive leaves : list bytes -> list bytes -> Prop :=
  | lv_none : leaves [] []
  | lv_plain a l : no_option a -> leaves (a :: l) (a :: l)
  | lv_dashes l : leaves (bs "--" :: l) l.
(** A command line that is in order: what is set, and the arguments. *)
Definition line_sets (dur : bytes -> Prop) (o : optset) (args : list bytes) (set : list (bytes * bytes)) (rest : list bytes) : Prop :=
  exists pre tail, args = pre ++ tail /\ options dur o pre set /\ leaves tail rest.
(** The first thing that is wrong in the line is an option -h or -help. *)
Definition asks_help (dur : bytes -> Prop) (o : optset) (args : list bytes) : Prop :=
  exists pre set s body name l, args = pre ++ s :: l /\ options dur o pre set /\ dashed s body /\
    (body = name \/ exists v, body = name ++ [x3d] ++ v) /\ (name = bs "h" \/ name = bs "help") /\ ~ defined o name.

(** The last setting of an option counts. *)
Fixpoint last_value (set : list (bytes * bytes)) (name : bytes) : option bytes :=
  match set with
  | [] => None
  | (n, v) :: set => match last_value set name with Some x => Some x | None => if decide (n = name) then Some v else None end
  end.
Definition on (set : list (bytes * bytes)) (name : bytes) : bool :=
  match last_value set name with Some v => bool_decide (v ∈ true_words) | None => false end.
Definition given (set : list (bytes * bytes)) (name dflt : bytes) : bytes := default dflt (last_value set name).

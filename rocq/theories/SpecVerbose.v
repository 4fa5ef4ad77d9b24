(** Specification vocabulary for what passcrypt -v prints, written without the model's
    functions. *)
From Verif Require Export SpecPasscrypt.
Local Open Scope Z_scope.

(** Two worlds differ at most in what has been printed. *)
Definition same_but_output (w w' : pworld) : Prop :=
  qFs w = qFs w' /\ qCwd w = qCwd w' /\ qUmask w = qUmask w' /\ qPw w = qPw w' /\ qRng w = qRng w' /\ qFate w = qFate w'.
(** The line for an entry packed under a path, and the lines for a list of entries: the
    first stands under the path given on the command line, the others under their own names. *)
Definition packing (x : file) (p : bytes) : bytes := (if folder x then bs "Pack directory " else bs "Pack file ") ++ p ++ [x0a].
Definition packing_all (p : bytes) (es : list file) : bytes :=
  match es with [] => [] | x :: es => packing x p ++ concat (map (fun x => packing x (fPath x)) es) end.
(** The lines for an entry unpacked. *)
Definition unpacking (x : file) : bytes := bs "Unpack " ++ fPath x ++ x0a :: dir_line x.
(** A line of the first kind, about any path. *)
Definition packing_line (l : bytes) : Prop := exists p, l = bs "Pack directory " ++ p ++ [x0a] \/ l = bs "Pack file " ++ p ++ [x0a].

(** Model of what secretscli's commands print: cmd/secretscli/commands.go:39-48,
    72-204 and help.go. No proofs here. *)
From Verif Require Export CmdSecrets.
Local Open Scope Z_scope.

(** What is outside the program: the width of the terminal (None: standard output is
    not one), the text of a time in the local zone, and the order in which Go walks
    through a map. Width and order may differ from one use to the next; both are
    followed by output each time, so they are functions of the output so far. *)
Class Tty := {
  tty_width : bytes -> option Z;
  tty_time : Z -> bytes;
  tty_meta : bytes -> gmap bytes (option bytes) -> list (bytes * option bytes) }.
(** Each entry of a map is met once. *)
Class TtyLaws `{T : Tty} := { meta_all : forall o md, tty_meta o md ≡ₚ map_to_list md }.

Definition nl : byte := x0a.
(** fmt's %d of an int64. *)
Definition show_int (z : Z) : bytes := if decide (z < 0) then bs "-" ++ show (- z) else show z.
(** "[!] label not found.", cmd/secretscli/commands.go:137, 145, 161, 169, 188. *)
Definition not_found (l : bytes) : bytes := bs "[!] " ++ l ++ bs " not found." ++ [nl].
(** [clearTerm], cmd/secretscli/commands.go:39-42. *)
Definition clear_text : bytes := [x1b] ++ bs "[H" ++ [x1b] ++ bs "[2J" ++ [nl].

(** [strings.Contains]. *)
Fixpoint str_contains (s sub : bytes) : bool :=
  bool_decide (sub `prefix_of` s) || match s with [] => false | _ :: s => str_contains s sub end.
(** [sort.Strings], with Go's order of strings. *)
Definition str_le (x y : bytes) : Prop := bytes_leb x y = true.
Global Instance str_le_dec : RelDecision str_le.
Proof. intros x y. unfold str_le. apply _. Defined.
(** The labels [listSecrets] chooses, cmd/secretscli/commands.go:98-121, sorted. *)
Definition list_keys (s : sstore) (args : list bytes) : list bytes :=
  merge_sort str_le
    (filter (fun l => args = [] \/ existsb (str_contains l) args = true) (map fst (map_to_list (recs s)))).
(** [dumpKeys], cmd/secretscli/commands.go:44-48. *)
Definition one_column (ks : list bytes) : bytes := concat (map (fun k => k ++ [nl]) ks).
(** fmt's %-Ns: padded on the right to N characters. *)
Definition pad_right (n : nat) (s : bytes) : bytes := s ++ replicate (n - length (chunks s)) x20.
(** [dumpFmtKeys], cmd/secretscli/commands.go:72-87: [odd] holds where i % 2 = 1. The
    format is "\t%%-%ds" of w/2 - 8; when that is negative its minus sign is read as
    the flag again, and when it is zero as the flag 0, without effect here, so the
    width is the absolute value. The kernel gives widths below 65536, small enough for
    fmt. *)
Fixpoint columns (n : nat) (odd : bool) (ks : list bytes) : bytes :=
  match ks with
  | [] => if odd then [] else [nl]
  | k :: ks => (if odd then [x09] ++ pad_right n k else k ++ [nl]) ++ columns n (negb odd) ks
  end.
(** [listSecrets], cmd/secretscli/commands.go:89-128. *)
Definition list_text `{Tty} (s : sstore) (args : list bytes) (out : bytes) : bytes :=
  let w := default 80 (tty_width out) in
  let ks := list_keys s args in
  bs "Key store: " ++ show (zlen ks) ++ bs " keys" ++ [nl] ++
  if decide (Exists (fun k => w < zlen k) ks) then one_column ks else columns (Z.to_nat (Z.abs (w / 2 - 8))) true ks.

(** One record of [readMeta], cmd/secretscli/commands.go:192-201, before the metadata
    and the metadata. *)
Definition meta_head `{Tty} (label : bytes) (r : srec) : bytes :=
  bs "Record: " ++ label ++ [nl] ++
  [x09] ++ bs "Last modification: " ++ tty_time (rTime r) ++ bs " (timestamp " ++ show_int (rTime r) ++ bs ")" ++ [nl] ++
  if decide (default ∅ (rMeta r) = ∅) then [] else [x09] ++ bs "Metadata:" ++ [nl].
Definition meta_row (kv : bytes * option bytes) : bytes := [x09; x09] ++ fst kv ++ bs ": " ++ default [] (snd kv) ++ [nl].
Definition meta_lines `{Tty} (out : bytes) (r : srec) : bytes :=
  if decide (default ∅ (rMeta r) = ∅) then [] else concat (map meta_row (tty_meta out (default ∅ (rMeta r)))).

(** [helpTable], cmd/secretscli/help.go:15-123, and its entries. *)
Record cmd_help := Help { hArgs : bytes; hDesc : bytes; hOld : bytes }.
Definition help_table : list (bytes * cmd_help) := [
  (bs "clear", Help (bs "none") (bs "

	Clear the screen using an ANSI escape code. This may not work
	in all terminals.
")
    (bs "attempt to clear the display"));
  (bs "help", Help (bs "optional: command names") (bs "

	Show help messages. If arguments are provided, show the
	full help message for the first argument.
")
    (bs "print usage information"));
  (bs "list", Help (bs "optional: substrings to search for") (bs "

	List the secrets in the store. If arguments are provided,
	they will be used to match labels: a label will be included
	in the list if any of the argumnts appear as substrings in
	the label.
")
    (bs "list the labels in the store"));
  (bs "passwd", Help (bs "none") (bs "

	Change the password on the store. Accepts no arguments.
")
    (bs "change the store's passphrase"));
  (bs "quit", Help (bs "none") (bs "

	Write the store to disk if it has been modified and exit. This
	may also be done with C-d.
")
    (bs "exit the program"));
  (bs "rmeta", Help (bs "required: one or more labels") (bs "

	Read metadata from the listed labels. Requires at least one
	label to be provided.
")
    (bs "display record metadata"));
  (bs "show", Help (bs "required: one or more labels") (bs "

	Print a secret's raw bytes to console. This is useful if the
	secret is textual (e.g. a passphrase); for binary data, see
	'showhex'. If more than one label is specified, the passwords
	will be printed with their label.
")
    (bs "show secrets as text"));
  (bs "showhex", Help (bs "required: one or more labels") (bs "

	Print a hex-encoded secret to console. This is useful if the
	secret contains binary data; for textual secrets, see
	'show'. If more than one label is specified, the passwords
	will be printed with their label.
")
    (bs "show secrets as hex-encoded"));
  (bs "store", Help (bs "required: one or more labels") (bs "

	Store a new passphrase for each of the labels specified. If the
	label already exists, the user will be prompted whether or not
	they wish to proceed.
")
    (bs "store secrets"));
  (bs "wmeta", Help (bs "required: a single label") (bs "

	Write metadata to the label; only one label may be
	specified. For metadata keys that replace old values, the
	previous value will be displayed and the overwrite will be
	noted.
")
    (bs "write metadata"));
  (bs "write", Help (bs "none") (bs "

	Write the store to disk. Note that this will be done
	automatically when the program exits, as well.
")
    (bs "write the store to disk"))].
Definition help_of (c : bytes) : option cmd_help := snd <$> find (fun kv => bool_decide (fst kv = c)) help_table.
(** [printCommands], cmd/secretscli/help.go:140-147: the table is in order already, and
    every command is in it. *)
Definition commands_text : bytes :=
  bs "Commands:" ++ [nl] ++ concat (map (fun kv => [x09] ++ fst kv ++ bs ": " ++ hOld (snd kv) ++ [nl]) help_table) ++
  bs "Use help command (e.g. help list) to read more detailed help messages." ++ [nl].
(** [help], cmd/secretscli/help.go:149-164; [None] is its error. *)
Definition help_text (args : list bytes) : option bytes :=
  match args with
  | [] => Some commands_text
  | c :: _ =>
      match help_of c with
      | None => None
      | Some h => Some (c ++ bs ": " ++ hOld h ++ [nl; x09] ++ bs "Arguments: " ++ hArgs h ++ [nl] ++ hDesc h ++ [nl; nl])
      end
  end.

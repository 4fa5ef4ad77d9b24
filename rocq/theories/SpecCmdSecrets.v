(** What the dialogues of the secrets command mean. *)
From Verif Require Export SpecCmd.
Local Open Scope Z_scope.

(** Entering several secrets: names one after the other, with the answers to the
    password prompt and the clock readings they use up. [ow] allows overwriting. *)
Inductive entering (ow : bool) : gmap bytes (option srec) -> list bytes -> list (option bytes) -> list Z ->
    gmap bytes (option srec) -> list (option bytes) -> list Z -> Prop :=
  | en_end m pw ts : entering ow m [] pw ts m pw ts
  | en_exists m name names pw ts m' pw' ts' : ow = false -> m !! name <> None ->
      entering ow m names pw ts m' pw' ts' -> entering ow m (name :: names) pw ts m' pw' ts'
  | en_empty m name names pw ts m' pw' ts' : ow = true \/ m !! name = None ->
      entering ow m names pw ts m' pw' ts' -> entering ow m (name :: names) (Some [] :: pw) ts m' pw' ts'
  | en_new m name names p pw ts m' pw' ts' : m !! name = None -> p <> [] ->
      entering ow (<[name := Some (SRec name (nth 0 ts 0) (Some p) None)]> m) names pw (drop 1 ts) m' pw' ts' ->
      entering ow m (name :: names) (Some p :: pw) ts m' pw' ts'
  | en_over m name r names p pw ts m' pw' ts' : ow = true -> m !! name = Some (Some r) -> p <> [] ->
      entering ow (<[name := Some (SRec (rLabel r) (nth 0 ts 0) (Some p) (rMeta r))]> m) names pw (drop 1 ts) m' pw' ts' ->
      entering ow m (name :: names) (Some p :: pw) ts m' pw' ts'.

(** Lines heard by a dialogue that tries again at an end of input. *)
Inductive rehears : stdin -> list bytes -> stdin -> Prop :=
  | rh_nil i : rehears i [] i
  | rh_line i l i1 ls i' : read_line i = (Some l, i1) -> rehears i1 ls i' -> rehears i (l :: ls) i'
  | rh_end i i1 ls i' : read_line i = (None, i1) -> rehears i1 ls i' -> rehears i ls i'.

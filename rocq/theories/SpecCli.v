(** What sessions of secretscli mean. *)
From Verif Require Export SpecCmd CmdCli.
Local Open Scope Z_scope.

(** *** The words of a line *)
Definition no_space_in (x : bytes) : Prop := forall w u v, white_space w -> x <> u ++ w ++ v.
Inductive line_words : bytes -> list bytes -> Prop :=
  | wd_end sep : Forall white_space sep -> line_words (concat sep) []
  | wd_word sep x s xs : Forall white_space sep -> x <> [] -> no_space_in x ->
      (s = [] \/ exists w u, white_space w /\ s = w ++ u) -> line_words s xs -> line_words (concat sep ++ x ++ s) (x :: xs).

(** The first word of a line. *)
Definition verb (line cmd : bytes) : Prop := exists args, line_words line (cmd :: args).
(** Lines that change no record and write no file: everything but these verbs. *)
Definition quiet (line : bytes) : Prop := ~ verb line (bs "store") /\ ~ verb line (bs "wmeta") /\ ~ verb line (bs "write") /\ ~ verb line (bs "quit").
(** Lines that may change the record under [k]. *)
Definition concerns (k line : bytes) : Prop :=
  exists args, k ∈ args /\ (line_words line (bs "store" :: args) \/ line_words line (bs "wmeta" :: args)).
(** Lines that cannot save the store in the middle of a session. *)
Definition no_save (line : bytes) : Prop :=
  ~ verb line (bs "write") /\ ~ verb line (bs "quit") /\ forall a b args, ~ line_words line (bs "store" :: a :: b :: args).

(** A secret store out of which the secrets were wiped: the passphrase is [n] zero
    bytes, and so is every secret and metadata value, except under the labels in
    [L]. *)
Definition zero_or_nil (b : option bytes) : Prop := match b with Some b => all_zero b | None => True end.
Definition hollow (n : nat) (L : bytes -> Prop) (s : sstore) : Prop :=
  sPass s = Some (zeros n) /\
  forall k r, ~ L k -> slot s k = Some (Some r) ->
    zero_or_nil (rSecret r) /\ forall md k' x, rMeta r = Some md -> md !! k' = Some x -> zero_or_nil x.

(** Answers that count as yes: y or yes, in any mixture of cases. *)
Definition affirmative (a : bytes) : Prop :=
  (exists c1, a = [c1] /\ (c1 = x79 \/ c1 = x59)) \/
  exists c1 c2 c3, a = [c1; c2; c3] /\ (c1 = x79 \/ c1 = x59) /\ (c2 = x65 \/ c2 = x45) /\ (c3 = x73 \/ c3 = x53).

Section WithCrypto.
Context `{C : Crypto} `{T : Tty}.
(** A session as a sequence: lines are read one by one, blank ones skipped, and
    each command is carried out before the next line is read. *)
Inductive runs (path : bytes) (m : Z) : sess -> world -> list bytes -> sess -> world -> Prop :=
  | rs_nil v w : runs path m v w [] v w
  | rs_blank v w i ls v' w' : read_line (wIn w) = (Some [], i) -> runs path m v (set_in w i) ls v' w' -> runs path m v w ls v' w'
  | rs_line v w i l ok v1 w1 ls v' w' : read_line (wIn w) = (Some l, i) -> l <> [] -> l <> bs "quit" ->
      command path m l v (set_in w i) = CRet ok v1 w1 -> runs path m v1 w1 ls v' w' -> runs path m v w (l :: ls) v' w'.
(** The state of a session that session_ends: after a number of commands, the last of
    which may have panicked. *)
Definition session_ends (path : bytes) (m : Z) (v : sess) (w : world) (ls : list bytes) (v' : sess) (w' : world) : Prop :=
  runs path m v w ls v' w' \/
  exists ls0 l v1 w1 i, ls = ls0 ++ [l] /\ runs path m v w ls0 v1 w1 /\ read_line (wIn w1) = (Some l, i) /\ l <> bs "quit" /\
    command path m l v1 (set_in w1 i) = CPanic v' w'.
(** No seal under the key of [pass'] is the seal of [text] under that of [pass]. *)
Definition locks_out (d : bytes) (m : Z) (pass text pass' : bytes) : Prop :=
  forall k k' t', mode_key m pass (take 32 d) k -> mode_key m pass' (take 32 d) k' ->
    sbox_seal k (take 24 (drop 32 d)) text <> sbox_seal k' (take 24 (drop 32 d)) t'.
(** States reachable from a start. *)
Inductive reaches (path : bytes) (m : Z) (c0 : cli) : cli -> Prop :=
  | rc_refl : reaches path m c0 c0
  | rc_step c c' : reaches path m c0 c -> cli_step path m c c' -> reaches path m c0 c'.
End WithCrypto.
(** Reading on: blank lines only; or blank lines and at most one line more. *)
Inductive blanks : stdin -> stdin -> Prop :=
  | bk_nil i : blanks i i
  | bk_more i i1 i2 : read_line i = (Some [], i1) -> blanks i1 i2 -> blanks i i2.
Definition peeks (i i' : stdin) : Prop := blanks i i' \/ exists i1 l, blanks i i1 /\ read_line i1 = (l, i').
(** The same but for what is left of the input, which was read ahead. *)
Definition but_ahead (w w' : world) : Prop := exists i, w' = set_in w i /\ peeks (wIn w) i.

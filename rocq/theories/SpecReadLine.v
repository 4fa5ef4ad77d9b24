(** What reading a line from standard input means. *)
From Verif Require Export ReadLine.
Local Open Scope Z_scope.

(** Taking the bytes [u] from the front of the input, without passing an end of
    input. *)
Inductive feeds : stdin -> bytes -> stdin -> Prop :=
  | fd_none i : feeds i [] i
  | fd_part a b i u i' : a <> [] -> b <> [] -> feeds (b :: i) u i' -> feeds ((a ++ b) :: i) (a ++ u) i'
  | fd_all a i u i' : a <> [] -> feeds i u i' -> feeds (a :: i) (a ++ u) i'.
(** Nothing more comes before an end of input; [i'] is what can be read after it. *)
Inductive at_end : stdin -> stdin -> Prop :=
  | ae_nil : at_end [] []
  | ae_eof i : at_end ([] :: i) i.

(** White space as Unicode defines it, in UTF-8: U+0009-000D, U+0020, U+0085,
    U+00A0, U+1680, U+2000-200A, U+2028, U+2029, U+202F, U+205F, U+3000. *)
Definition white_space (w : bytes) : Prop :=
  (exists b, w = [b] /\ (9 <= bz b <= 13 \/ bz b = 32)) \/
  (exists b, w = [xc2; b] /\ (bz b = 133 \/ bz b = 160)) \/
  w = [xe1; x9a; x80] \/
  (exists b, w = [xe2; x80; b] /\ (128 <= bz b <= 138 \/ bz b = 168 \/ bz b = 169 \/ bz b = 175)) \/
  w = [xe2; x81; x9f] \/ w = [xe3; x80; x80].
(** [t] is [s] without the white space around it. *)
Definition trimmed (s t : bytes) : Prop :=
  exists a b, s = concat a ++ t ++ concat b /\ Forall white_space a /\ Forall white_space b /\
    (forall w u, white_space w -> t <> w ++ u) /\ (forall w u, white_space w -> t <> u ++ w).

(** A line typed at a terminal: one read delivers it whole. *)
Definition typed (l : bytes) : bytes := l ++ [x0a].
Definition short_line (l : bytes) : Prop := x0a ∉ l /\ (length l < 4096)%nat.
(** Successive calls of ReadLine see these lines. *)
Inductive hears : stdin -> list bytes -> stdin -> Prop :=
  | he_nil i : hears i [] i
  | he_cons i l i1 ls i' : read_line i = (Some l, i1) -> hears i1 ls i' -> hears i (l :: ls) i'.

(** The read that completes the line: after [u0] a read delivers [p], which holds
    the first newline. Reads end where a chunk ends or where another 4096 bytes
    are full, whichever comes first. *)
Definition last_read (i : stdin) (u0 p : bytes) (i' : stdin) : Prop :=
  x0a ∉ u0 /\ x0a ∈ p /\
  (exists r i1, feeds i u0 ((p ++ r) :: i1) /\
     ((r = [] /\ i' = i1) \/ (r <> [] /\ i' = r :: i1 /\ exists q, length (u0 ++ p) = (q * bufSize)%nat))) /\
  forall k q, (0 < k < length p)%nat -> (length u0 + k <> q * bufSize)%nat.

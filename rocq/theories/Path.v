(** Model of path/filepath on Unix (Go 1.23), as the code uses it. No proofs here. *)
From Verif Require Export Bytes.
Local Open Scope Z_scope.

Definition slash : byte := x2f.
Definition dot : byte := x2e.
(** The bytes up to the next separator, and the rest. *)
Fixpoint elem_span (p : bytes) : bytes * bytes :=
  match p with
  | [] => ([], [])
  | c :: r => if decide (c = slash) then ([], p) else let '(e, r) := elem_span r in (c :: e, r)
  end.
(** Backtracking in [Clean]: from index [w] down to [dotdot] or a separator. *)
Fixpoint clean_back (w dotdot : nat) (out : bytes) : nat :=
  match w with
  | O => O
  | S w' => if decide (dotdot < w /\ nth w out x00 <> slash)%nat then clean_back w' dotdot out else w
  end.
(** At the end, or before a separator. *)
Definition elem_end (p : bytes) : bool := match p with [] => true | c :: _ => bool_decide (c = slash) end.
(** The loop of [Clean]: [rest] is the path from index r, [out] the buffer. *)
Fixpoint clean_loop (f : nat) (rooted : bool) (rest out : bytes) (dotdot : nat) : bytes :=
  match f, rest with
  | O, _ | _, [] => out
  | S f, c :: r =>
      if decide (c = slash) then clean_loop f rooted r out dotdot else
      if bool_decide (c = dot) && elem_end r then clean_loop f rooted r out dotdot else
      if bool_decide (c = dot) && bool_decide (head r = Some dot) && elem_end (drop 1 r) then
        if decide (dotdot < length out)%nat then clean_loop f rooted (drop 1 r) (take (clean_back (length out - 1) dotdot out) out) dotdot
        else if rooted then clean_loop f rooted (drop 1 r) out dotdot
        else
          let out := (if decide (0 < length out)%nat then out ++ [slash] else out) ++ [dot; dot] in
          clean_loop f rooted (drop 1 r) out (length out)
      else
        let '(e, rest) := elem_span rest in
        let out := if (rooted && negb (bool_decide (length out = 1%nat))) || (negb rooted && negb (bool_decide (length out = 0%nat))) then out ++ [slash] else out in
        clean_loop f rooted rest (out ++ e) dotdot
  end.
Definition is_rooted (p : bytes) : bool := bool_decide (head p = Some slash).
(** [filepath.Clean]. *)
Definition clean (p : bytes) : bytes :=
  if decide (p = []) then [dot] else
  let out := if is_rooted p then clean_loop (length p) true (drop 1 p) [slash] 1 else clean_loop (length p) false p [] 0 in
  if decide (out = []) then [dot] else out.
(** [filepath.Join] of two elements. *)
Definition fjoin (a b : bytes) : bytes :=
  if decide (a = []) then if decide (b = []) then [] else clean b else clean (a ++ [slash] ++ b).
(** [filepath.Dir]: up to and with the last separator, cleaned. *)
Fixpoint upto_slash (p : bytes) : bytes :=
  match p with
  | [] => []
  | c :: r => match upto_slash r with [] => if decide (c = slash) then [c] else [] | u => c :: u end
  end.
Definition fdir (p : bytes) : bytes := clean (upto_slash p).

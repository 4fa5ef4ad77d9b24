(** What a path means, by its components. *)
From Verif Require Export Bytes.
Local Open Scope Z_scope.

(** The components of a path: what is between the separators, possibly empty. *)
Fixpoint comps (p : bytes) : list bytes :=
  match p with
  | [] => [[]]
  | x2f :: r => [] :: comps r
  | c :: r => match comps r with e :: l => (c :: e) :: l | [] => [[c]] end
  end.
Definition absolute (p : bytes) : Prop := head p = Some x2f.
(** Simplifying components, the last one first: nothing and "." are dropped, ".."
    takes the name before it away, or stays if there is none, and is dropped in the
    root. *)
Definition norm_step (rooted : bool) (st : list bytes) (c : bytes) : list bytes :=
  if decide (c = [] \/ c = bs ".") then st
  else if decide (c = bs "..") then
    match st with
    | [] => if rooted then [] else [c]
    | x :: r => if decide (x = bs "..") then c :: st else r
    end
  else c :: st.
Definition norm (rooted : bool) (cs : list bytes) : list bytes := rev (fold_left (norm_step rooted) cs []).
(** Components as a path. *)
Fixpoint slashed (cs : list bytes) : bytes :=
  match cs with [] => [] | [c] => c | c :: l => c ++ x2f :: slashed l end.
Definition as_path (rooted : bool) (cs : list bytes) : bytes :=
  match rooted, cs with
  | false, [] => bs "."
  | false, _ => slashed cs
  | true, _ => x2f :: slashed cs
  end.
(** A component that names something. *)
Definition fname (c : bytes) : Prop := c <> [] /\ c <> bs "." /\ c <> bs ".." /\ x2f ∉ c.
(** Where a walk from a directory by components leads, if there are no links. *)
Definition go_step (at_ : list bytes) (c : bytes) : list bytes :=
  if decide (c = [] \/ c = bs ".") then at_ else if decide (c = bs "..") then removelast at_ else at_ ++ [c].
Definition go_to (at_ : list bytes) (cs : list bytes) : list bytes := fold_left go_step cs at_.

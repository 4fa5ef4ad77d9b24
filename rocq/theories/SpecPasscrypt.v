(** Specification vocabulary for passcrypt, written without the model's functions. *)
From Verif Require Export SpecPath SpecDer SpecStore Passcrypt.
Local Open Scope Z_scope.

(** *** File trees *)
Definition a_dir (f : tree) (l : list bytes) : Prop := exists m, f !! l = Some (Dir m).
(** Every entry is in a directory and has a name; modes have nine bits. *)
Definition sane (f : tree) : Prop :=
  a_dir f [] /\
  (forall l c n, f !! (l ++ [c]) = Some n -> fname c /\ a_dir f l) /\
  (forall l m, f !! l = Some (Dir m) -> 0 <= m < 512) /\
  (forall l m d, f !! l = Some (Reg m d) -> 0 <= m < 512).
Definition ready (w : pworld) : Prop := sane (qFs w) /\ a_dir (qFs w) (qCwd w).
(** Where a path starts, and leads. *)
Definition base (w : pworld) (p : bytes) : list bytes := match p with x2f :: _ => [] | _ => qCwd w end.
Definition loc (w : pworld) (p : bytes) : list bytes := go_to (base w p) (comps p).
(** The locations on the way. *)
Fixpoint way (l : list bytes) (cs : list bytes) : list (list bytes) :=
  match cs with [] => [l] | c :: cs => l :: way (go_step l c) cs end.
(** The path leads to something, and all before it are directories. *)
Definition reaches (w : pworld) (p : bytes) : Prop :=
  p <> [] /\ (forall k, k ∈ removelast (way (base w p) (comps p)) -> a_dir (qFs w) k) /\ qFs w !! loc w p <> None.
(** A file can be opened for writing at the path. *)
Definition can_write (w : pworld) (p : bytes) : Prop :=
  p <> [] /\ (forall k, k ∈ removelast (way (base w p) (comps p)) -> a_dir (qFs w) k) /\
  (qFs w !! loc w p = None \/ exists m d, qFs w !! loc w p = Some (Reg m d)).
(** The permissions of what is created. *)
Definition lowered (umask perm : Z) : Z := Z.ldiff (perm mod 512) umask.
(** A write that does not truncate. *)
Definition over (old d : bytes) : bytes := d ++ drop (length d) old.

(** *** What is packed *)
(** Lexicographic order. *)
Inductive lex {A} (lt : A -> A -> Prop) : list A -> list A -> Prop :=
  | lex_nil x l : lex lt [] (x :: l)
  | lex_head x y a b : lt x y -> lex lt (x :: a) (y :: b)
  | lex_tail x a b : lex lt a b -> lex lt (x :: a) (x :: b).
Definition name_lt : bytes -> bytes -> Prop := lex (fun x y => bz x < bz y).
Definition path_lt : list bytes -> list bytes -> Prop := lex name_lt.
(** The name in the archive of what is at [s] below the path [p]. *)
Definition named (p : bytes) (s : list bytes) : bytes :=
  let r := bool_decide (head p = Some x2f) in as_path r (norm r (comps p) ++ s).
Definition entry (G : gzip) (f : tree) (L : list bytes) (p : bytes) (s : list bytes) (x : file) : Prop :=
  match f !! (L ++ s) with
  | Some (Dir m) => x = File (named p s) (2 ^ 31 + m) []
  | Some (Reg m d) => x = File (named p s) m (gzZip G d)
  | _ => False
  end.
Definition packable (f : tree) (l : list bytes) : Prop :=
  match f !! l with Some (Dir _) | Some (Reg _ _) => True | _ => False end.
(** Something is below a directory in [cut]. *)
Definition below (cut : list (list bytes)) (s : list bytes) : Prop := exists c, c ∈ cut /\ c `prefix_of` s /\ c <> s.
(** The entries for the path [p], which leads to [L]: every directory and regular
    file there, in lexicographic order, but for what is below the directories [cut]. *)
Definition listing (G : gzip) (f : tree) (L : list bytes) (p : bytes) (cut : list (list bytes)) (es : list file) : Prop :=
  (forall c, c ∈ cut -> a_dir f (L ++ c)) /\
  exists ss, StronglySorted path_lt ss /\ (forall s, s ∈ ss <-> packable f (L ++ s) /\ ~ below cut s) /\ Forall2 (entry G f L p) ss es.
Definition listings (G : gzip) (w : pworld) (cuts : list (list (list bytes))) (paths : list bytes) (es : list file) : Prop :=
  exists ess, es = concat ess /\ length cuts = length paths /\ length ess = length paths /\
    forall i p c e, paths !! i = Some p -> cuts !! i = Some c -> ess !! i = Some e -> listing G (qFs w) (loc w p) p c e.

(** *** The archive *)
Definition printable_char (b : byte) : Prop := b ∈ bs "ABCDEFGHIJKLMNOPQRSTUVWXYZabcdefghijklmnopqrstuvwxyz0123456789 '()+,-./:=?".
Inductive string_der (s e : bytes) : Prop :=
  | str_printable : Forall printable_char s -> element x13 s e -> string_der s e
  | str_utf8 : ~ Forall printable_char s -> utf8_text s -> element x0c s e -> string_der s e.
Definition file_der (x : file) (e : bytes) : Prop :=
  exists p c m d, string_der (fPath x) p /\ int_contents (fMode x) c /\ element x02 c m /\ element x04 (fData x) d /\ element x30 (p ++ m ++ d) e.
Definition files_der (es : list file) (s : bytes) : Prop := exists l, Forall2 file_der es l /\ element x30 (concat l) s.
Definition go_file (x : file) : Prop := int64 (fMode x).

(** *** What is unpacked *)
Definition folder (x : file) : bool := Z.testbit (fMode x) 31.
(** Where an entry goes, from the output directory. *)
Definition dest (T : list bytes) (x : file) : list bytes := go_to T (comps (fPath x)).
(** The directory a file is put in, as filepath.Dir gives it. *)
Definition dir_of (T : list bytes) (p : bytes) : list bytes :=
  let cs := removelast (comps p) in go_to T (match p with x2f :: _ => norm true cs | _ => cs end).
(** The directory an entry needs, and the mode it is made with. *)
Definition needs (T : list bytes) (x : file) : list bytes * Z :=
  if folder x then (dest T x, fMode x) else (dir_of T (fPath x), dir_perm (fMode x)).
(** The path of a file ends in a name, and [filepath.Dir] does not change where the
    rest leads. All paths that are packed are like this. *)
Definition tidy (x : file) : Prop :=
  (head (fPath x) = Some x2f -> bs ".." ∉ comps (fPath x)) /\
  (folder x = false -> exists cs c, comps (fPath x) = cs ++ [c] /\ fname c).
(** "../" repeated, then a name. *)
Fixpoint climbs (n : nat) (c : bytes) : bytes := match n with O => c | S n => bs "../" ++ climbs n c end.
Definition no_up (x : file) : Prop := bs ".." ∉ comps (fPath x).

(** What may change: missing directories on the way, and the files named. *)
Definition touched (T : list bytes) (tops : list (list bytes)) (es : list file) (f f' : tree) : Prop :=
  forall l, f' !! l = f !! l \/
    (f !! l = None /\ a_dir f' l /\ (l ∈ tops \/ exists x, x ∈ es /\ l `prefix_of` fst (needs T x))) \/
    (exists x d m', x ∈ es /\ folder x = false /\ l = dest T x /\ f' !! l = Some (Reg m' d) /\
       (f !! l = None \/ exists d0, f !! l = Some (Reg m' d0))).

(** When all entries can be unpacked. *)
Definition can_be_dir (f : tree) (l : list bytes) : Prop := f !! l = None \/ a_dir f l.
Definition can_be_file (f : tree) (l : list bytes) : Prop := f !! l = None \/ exists m d, f !! l = Some (Reg m d).
Definition fits (G : gzip) (T : list bytes) (tops : list (list bytes)) (es : list file) (f : tree) : Prop :=
  forall x, x ∈ es ->
    (forall l, l `prefix_of` fst (needs T x) -> can_be_dir f l /\ forall y, y ∈ es -> folder y = false -> dest T y <> l) /\
    (folder x = false -> can_be_file f (dest T x) /\ dest T x ∉ tops /\ exists d, gzRead G (fData x) = Some (d, true)).
(** What is there then. *)
Definition file_at (T : list bytes) (l : list bytes) (x : file) : bool := negb (folder x) && bool_decide (dest T x = l).
Definition contents (G : gzip) (x : file) : bytes := match gzRead G (fData x) with Some (d, _) => d | None => [] end.
Definition written (G : gzip) (T : list bytes) (es : list file) (l : list bytes) (old : bytes) : bytes :=
  fold_left over (map (contents G) (List.filter (file_at T l) es)) old.
Definition dir_at (T : list bytes) (l : list bytes) (x : file) : bool := bool_decide (l `prefix_of` fst (needs T x)).
Definition unpacked (G : gzip) (umask : Z) (T : list bytes) (tops : list (list bytes)) (es : list file) (f f' : tree) : Prop :=
  forall l, f' !! l =
    match f !! l with
    | Some (Reg m d) => Some (Reg m (written G T es l d))
    | Some n => Some n
    | None =>
        match head (List.filter (file_at T l) es) with
        | Some x => Some (Reg (lowered umask (fMode x)) (written G T es l []))
        | None =>
            if decide (l ∈ tops) then Some (Dir (lowered umask 493)) else
            match head (List.filter (dir_at T l) es) with
            | Some x => Some (Dir (lowered umask (snd (needs T x))))
            | None => None
            end
        end
    end.
(** The parts of the world a command does not change. *)
Definition kept (w w' : pworld) : Prop := qCwd w' = qCwd w /\ qUmask w' = qUmask w /\ (qFate w = [] -> qFate w' = []).
(** The names an archive gives a root, and copies of what is below it. *)
Definition root_names (p : bytes) : list bytes := norm (bool_decide (head p = Some x2f)) (comps p).
Definition copy_of (umask : Z) (n : option node) : option node :=
  match n with
  | Some (Dir m) => Some (Dir (lowered umask m))
  | Some (Reg m d) => Some (Reg (lowered umask m) d)
  | _ => None
  end.

(** *** Whole archives *)
(** What is written for an encrypted archive, and what the bytes of a file hold: a PEM
    block of the right type, or if there is no block, themselves. *)
Definition content (armour : bool) (c : bytes) : bytes := if armour then pem_encode (bs "PASSCRYPT ARCHIVE") [] c else c.
Definition enclosed (d c : bytes) : Prop := pem_decode d = Some (bs "PASSCRYPT ARCHIVE", c) \/ pem_decode d = None /\ c = d.
(** The lines printed. *)
Definition line_of (x : file) : bytes := x09 :: fPath x ++ (if folder x then [x2f] else []) ++ [x0a].
Definition dir_line (x : file) : bytes := if folder x then bs "Directory: " ++ fPath x ++ [x0a] else [].
Section WithCrypto.
Context `{C : Crypto}.
(** The archive opened is the file at the path, under the passphrase typed, and holds
    these entries. *)
Definition holds_entries (w : pworld) (arch : bytes) (es : list file) : Prop :=
  reaches w arch /\ exists m d c pass pws s, qFs w !! loc w arch = Some (Reg m d) /\ enclosed d c /\ qPw w = Some pass :: pws /\ genuine_file pass s c /\ parse_files s = Some es.
End WithCrypto.

(** *** Directory permissions *)
(** The search bit of a class is set exactly if the class had any permission; no other
    bit is different. *)
Definition searchable (m m' : Z) : Prop :=
  forall i, 0 <= i < 32 -> Z.testbit m' i =
    if decide (i = 0 \/ i = 3 \/ i = 6) then Z.testbit m i || Z.testbit m (i + 1) || Z.testbit m (i + 2) else Z.testbit m i.

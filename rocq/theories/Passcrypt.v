(** Model of cmd/passcrypt/passcrypt.go. No proofs here. *)
From Verif Require Export Path Der Pem Secret Json.
Local Open Scope Z_scope.

(** *** The operating system *)
(** A file tree without links, by location: the names from the root. Of a mode only
    the nine permission bits and the kind are kept. [Other]: neither a directory nor a
    regular file; it is never followed. *)
Inductive node := Dir (perm : Z) | Reg (perm : Z) (data : bytes) | Other.
Notation tree := (gmap (list bytes) node).
(** The world of the command. [qFate]: how the system calls end, in order; [Some n] is
    an error, for a write after [n] bytes; all calls succeed after the list. *)
Record pworld := PW { qFs : tree; qCwd : list bytes; qUmask : Z; qPw : list (option bytes); qRng : rng; qFate : list (option nat); qOut : bytes }.
Definition set_fs (w : pworld) (f : tree) : pworld := PW f (qCwd w) (qUmask w) (qPw w) (qRng w) (qFate w) (qOut w).
Definition set_qrng (w : pworld) (g : rng) : pworld := PW (qFs w) (qCwd w) (qUmask w) (qPw w) g (qFate w) (qOut w).
Definition fate (w : pworld) : option nat * pworld :=
  match qFate w with [] => (None, w) | x :: l => (x, PW (qFs w) (qCwd w) (qUmask w) (qPw w) (qRng w) l (qOut w)) end.
Definition q_print (w : pworld) (b : bytes) : pworld := PW (qFs w) (qCwd w) (qUmask w) (qPw w) (qRng w) (qFate w) (qOut w ++ b).
(** [readpass.PasswordPromptBytes]; [None] is an error. *)
Definition q_pass (w : pworld) : option bytes * pworld :=
  match qPw w with [] => (None, w) | p :: l => (p, PW (qFs w) (qCwd w) (qUmask w) l (qRng w) (qFate w) (qOut w)) end.

(** Path resolution: every directory on the way must exist. *)
Inductive place := At (l : list bytes) | NoEnt | NotDir.
Definition step_to (l : list bytes) (c : bytes) : list bytes :=
  if decide (c = [] \/ c = bs ".") then l else if decide (c = bs "..") then removelast l else l ++ [c].
Fixpoint split_path (p : bytes) : list bytes :=
  match p with
  | [] => [[]]
  | c :: r => if decide (c = slash) then [] :: split_path r else match split_path r with e :: l => (c :: e) :: l | [] => [[c]] end
  end.
Fixpoint resolve (f : tree) (l : list bytes) (cs : list bytes) : place :=
  match cs with
  | [] => At l
  | c :: cs => match f !! l with Some (Dir _) => resolve f (step_to l c) cs | Some _ => NotDir | None => NoEnt end
  end.
Definition start (w : pworld) (p : bytes) : list bytes := if is_rooted p then [] else qCwd w.
Definition locate (w : pworld) (p : bytes) : place := if decide (p = []) then NoEnt else resolve (qFs w) (start w p) (split_path p).

(** stat(2), lstat(2). *)
Inductive stat_r := Found (n : node) | Missing | StatErr.
Definition sys_stat (w : pworld) (p : bytes) : stat_r * pworld :=
  match fate w with
  | (Some _, w) => (StatErr, w)
  | (None, w) =>
      (match locate w p with At l => match qFs w !! l with Some n => Found n | None => Missing end | NoEnt => Missing | NotDir => StatErr end, w)
  end.
Definition create_mode (w : pworld) (perm : Z) : Z := Z.land (Z.land perm 511) (Z.lnot (qUmask w)).
(** [os.MkdirAll] by components: each missing directory is made. *)
Fixpoint mkdirs (cs : list bytes) (l : list bytes) (perm : Z) (w : pworld) : bool * pworld :=
  match cs with
  | [] => (true, w)
  | c :: cs =>
      let l := step_to l c in
      match qFs w !! l with
      | Some (Dir _) => mkdirs cs l perm w
      | Some _ => (false, w)
      | None =>
          match fate w with
          | (Some _, w) => (false, w)
          | (None, w) => mkdirs cs l perm (set_fs w (<[l := Dir (create_mode w perm)]> (qFs w)))
          end
      end
  end.
Definition mkdir_all (p : bytes) (perm : Z) (w : pworld) : bool * pworld :=
  if decide (p = []) then (false, w) else mkdirs (split_path p) (start w p) perm w.
(** open(2) for writing, with O_CREAT; the location opened. [trunc]: with O_TRUNC. *)
Definition sys_open (trunc : bool) (p : bytes) (perm : Z) (w : pworld) : option (list bytes) * pworld :=
  match fate w with
  | (Some _, w) => (None, w)
  | (None, w) =>
      match locate w p with
      | At l =>
          match qFs w !! l with
          | Some (Reg m d) => (Some l, set_fs w (<[l := Reg m (if trunc then [] else d)]> (qFs w)))
          | None => (Some l, set_fs w (<[l := Reg (create_mode w perm) []]> (qFs w)))
          | Some _ => (None, w)
          end
      | _ => (None, w)
      end
  end.
(** write(2) from the start of an open file: it replaces what was there. *)
Definition overwrite (d old : bytes) : bytes := d ++ drop (length d) old.
Definition sys_write (l : list bytes) (d : bytes) (w : pworld) : bool * pworld :=
  let '(x, w) := fate w in
  let put d := match qFs w !! l with Some (Reg m old) => set_fs w (<[l := Reg m (overwrite d old)]> (qFs w)) | _ => w end in
  match x with Some n => (false, put (take n d)) | None => (true, put d) end.
(** Reading a whole file: open, stat or read may fail. *)
Definition sys_read (p : bytes) (w : pworld) : option (Z * bytes) * pworld :=
  match fate w with
  | (Some _, w) => (None, w)
  | (None, w) => (match locate w p with At l => match qFs w !! l with Some (Reg m d) => Some (m, d) | _ => None end | _ => None end, w)
  end.
(** The sorted names in a directory. *)
Fixpoint name_le (a b : bytes) : bool :=
  match a, b with
  | [], _ => true
  | _, [] => false
  | x :: a, y :: b => if decide (bz x = bz y) then name_le a b else bool_decide (bz x < bz y)
  end.
Fixpoint insert_name (n : bytes) (l : list bytes) : list bytes :=
  match l with [] => [n] | x :: r => if name_le n x then n :: l else x :: insert_name n r end.
Definition sort_names (l : list bytes) : list bytes := fold_right insert_name [] l.
Definition children (f : tree) (l : list bytes) : list bytes :=
  sort_names (omap (fun k => if decide (k <> [] /\ removelast k = l) then last k else None) (map fst (map_to_list f))).
Definition sys_names (p : bytes) (w : pworld) : option (list bytes) * pworld :=
  match fate w with
  | (Some _, w) => (None, w)
  | (None, w) => (match locate w p with At l => Some (children (qFs w) l) | _ => None end, w)
  end.

(** *** The archive *)
(** [File], cmd/passcrypt/passcrypt.go:43-47. *)
Record file := File { fPath : bytes; fMode : Z; fData : bytes }.
(** [isPrintable] of encoding/asn1; [more]: with '*' and '&'. *)
Definition printable (more : bool) (b : byte) : bool :=
  let n := bz b in
  bool_decide (97 <= n <= 122) || bool_decide (65 <= n <= 90) || bool_decide (48 <= n <= 57) || bool_decide (39 <= n <= 41) || bool_decide (43 <= n <= 47)
  || bool_decide (n = 32) || bool_decide (n = 58) || bool_decide (n = 61) || bool_decide (n = 63) || (more && bool_decide (n = 42 \/ n = 38)).
(** [utf8.Valid]. *)
Definition utf8_valid (s : bytes) : bool := forallb (fun c => negb (bool_decide (utf8_len c = O))) (chunks s).
(** [asn1.Marshal] of a string: PrintableString, else UTF8String. *)
Definition der_string (s : bytes) : option bytes :=
  if forallb (printable false) s then Some (der_element x13 s) else if utf8_valid s then Some (der_element x0c s) else None.
Definition der_file (x : file) : option bytes :=
  match der_string (fPath x) with
  | None => None
  | Some p => Some (der_element TagSequence (p ++ der_int (fMode x) ++ der_octets (fData x)))
  end.
Fixpoint der_list (l : list file) : option bytes :=
  match l with
  | [] => Some []
  | x :: l => match der_file x, der_list l with Some a, Some b => Some (a ++ b) | _, _ => None end
  end.
(** [asn1.Marshal(files)]. *)
Definition der_files (l : list file) : option bytes :=
  match der_list l with None => None | Some b => Some (der_element TagSequence b) end.

(** [parseBMPString]: UTF-16, without a final zero. *)
Fixpoint utf16 (s : bytes) : bytes :=
  match s with
  | a :: b :: r =>
      let u := bz a * 256 + bz b in
      if decide (55296 <= u < 56320) then
        match r with
        | c :: d :: r' =>
            let v := bz c * 256 + bz d in
            if decide (56320 <= v < 57344) then utf8_enc ((u - 55296) * 1024 + (v - 56320) + 65536) ++ utf16 r' else fffd ++ utf16 r
        | _ => fffd ++ utf16 r
        end
      else if decide (56320 <= u < 57344) then fffd ++ utf16 r else utf8_enc u ++ utf16 r
  | _ => []
  end.
Definition bmp (s : bytes) : option bytes :=
  if decide (length s mod 2 <> 0)%nat then None else
  Some (utf16 (if decide (2 <= length s /\ drop (length s - 2) s = [x00; x00])%nat then take (length s - 2) s else s)).
(** [parseField] of a string: any of the string types. *)
Definition string_of (tag : byte) (c : bytes) : option bytes :=
  match tag with
  | x13 => if forallb (printable true) c then Some c else None
  | x0c => if utf8_valid c then Some c else None
  | x12 => if forallb (fun b => bool_decide (48 <= bz b <= 57 \/ bz b = 32)) c then Some c else None
  | x16 => if forallb (fun b => bool_decide (bz b < 128)) c then Some c else None
  | x14 | x1b => Some c
  | x1e => bmp c
  | _ => None
  end.
Definition take_string (s : bytes) : option (bytes * bytes) :=
  match s with
  | [] => None
  | tag :: _ =>
      match der_field tag s with
      | Some (c, r) => match string_of tag c with Some t => Some (t, r) | None => None end
      | None => None
      end
  end.
(** The contents of the SEQUENCE of a file; more after the last field is allowed. *)
Definition parse_file (s : bytes) : option file :=
  match take_string s with
  | None => None
  | Some (p, s) =>
      match der_field TagInteger s with
      | None => None
      | Some (c, s) =>
          match der_int64 c, der_field TagOctetString s with
          | Some m, Some (d, _) => Some (File p m d)
          | _, _ => None
          end
      end
  end.
(** [parseSequenceOf]. Fuel: every element has a byte. *)
Fixpoint parse_list (f : nat) (s : bytes) : option (list file) :=
  match f, s with
  | _, [] => Some []
  | O, _ => None
  | S f, _ =>
      match der_field TagSequence s with
      | None => None
      | Some (c, r) => match parse_file c, parse_list f r with Some x, Some l => Some (x :: l) | _, _ => None end
      end
  end.
(** [asn1.Unmarshal(in, &files)]; what follows is dropped. *)
Definition parse_files (s : bytes) : option (list file) :=
  match der_field TagSequence s with None => None | Some (c, _) => parse_list (length c) c end.

(** *** The command *)
(** compress/gzip: writing, and reading: [None] if the header is bad, else the data up
    to the end or an error. *)
Record gzip := GZ { gzZip : bytes -> bytes; gzRead : bytes -> option (bytes * bool) }.

(** [dirPerm], cmd/passcrypt/passcrypt.go:27-41. Additions that overflow int64 do not
    show in the 32 bits kept. *)
Definition dir_perm (mode : Z) : Z :=
  let mode := if decide (Z.land mode 7 <> 0) then mode + 1 else mode in
  let mode := if decide (Z.land mode 56 <> 0) then mode + 8 else mode in
  let mode := if decide (Z.land mode 448 <> 0) then mode + 64 else mode in
  mode mod 2 ^ 32.
(** [os.FileMode(mode).IsDir()]. *)
Definition ModeDir : Z := 2 ^ 31.
Definition is_dir (mode : Z) : bool := Z.testbit mode 31.

Section WithGzip.
Context (G : gzip).

(** [packFile], cmd/passcrypt/passcrypt.go:49-80. *)
Definition pack_file (p : bytes) (w : pworld) : option file * pworld :=
  match sys_read p w with
  | (None, w) => (None, w)
  | (Some (m, d), w) => (Some (File (clean p) m (gzZip G d)), w)
  end.
(** [filepath.Walk] with [walker], cmd/passcrypt/passcrypt.go:108-135, from a node
    already looked up. A directory whose names cannot be read is packed without them:
    [walker] does not look at its error. Fuel: every directory is one level deeper. *)
Fixpoint pack_walk (f : nat) (p : bytes) (n : node) (w : pworld) : option (list file) * pworld :=
  match f with
  | O => (None, w)
  | S f =>
      match n with
      | Other => (Some [], w)
      | Reg _ _ => match pack_file p w with (Some x, w) => (Some [x], w) | (None, w) => (None, w) end
      | Dir m =>
          let x := File (clean p) (ModeDir + m) [] in
          match sys_names p w with
          | (None, w) => (Some [x], w)
          | (Some names, w) =>
              match
                (fix go (names : list bytes) (w : pworld) : option (list file) * pworld :=
                   match names with
                   | [] => (Some [], w)
                   | c :: names =>
                       match sys_stat w (fjoin p c) with
                       | (Found n, w) =>
                           match pack_walk f (fjoin p c) n w with
                           | (None, w) => (None, w)
                           | (Some a, w) => match go names w with (Some b, w) => (Some (a ++ b), w) | (None, w) => (None, w) end
                           end
                       | (_, w) => (None, w)
                       end
                   end) names w
              with
              | (Some l, w) => (Some (x :: l), w)
              | (None, w) => (None, w)
              end
          end
      end
  end.
(** [packFiles], cmd/passcrypt/passcrypt.go:104-149, before [asn1.Marshal]. *)
Fixpoint pack_roots (paths : list bytes) (w : pworld) : option (list file) * pworld :=
  match paths with
  | [] => (Some [], w)
  | p :: paths =>
      match sys_stat w p with
      | (Found n, w) =>
          match pack_walk (S (size (qFs w))) p n w with
          | (None, w) => (None, w)
          | (Some a, w) => match pack_roots paths w with (Some b, w) => (Some (a ++ b), w) | (None, w) => (None, w) end
          end
      | (_, w) => (None, w)
      end
  end.

(** [unpackFile], cmd/passcrypt/passcrypt.go:82-102. *)
Definition unpack_file (x : file) (top : bytes) (w : pworld) : bool * pworld :=
  match gzRead G (fData x) with
  | None => (false, w)
  | Some (d, ok) =>
      match sys_open false (fjoin top (fPath x)) (fMode x) w with
      | (None, w) => (false, w)
      | (Some l, w) => let '(b, w) := sys_write l d w in (b && ok, w)
      end
  end.
(** One round of the loop of [unpackFiles], cmd/passcrypt/passcrypt.go:168-197. *)
Definition unpack_one (x : file) (top : bytes) (w : pworld) : bool * pworld :=
  if is_dir (fMode x) then
    mkdir_all (fjoin top (fPath x)) (fMode x) (q_print w (bs "Directory: " ++ fPath x ++ [x0a]))
  else
    let d := clean (fjoin top (fdir (fPath x))) in
    let '(b, w) := match sys_stat w d with (Missing, w) => mkdir_all d (dir_perm (fMode x)) w | (_, w) => (true, w) end in
    if b then unpack_file x top w else (false, w).
Fixpoint unpack_loop (l : list file) (top : bytes) (w : pworld) : bool * pworld :=
  match l with
  | [] => (true, w)
  | x :: l => let '(b, w) := unpack_one x top w in if b then unpack_loop l top w else (false, w)
  end.
(** [unpackFiles], cmd/passcrypt/passcrypt.go:151-199. Not verbose. *)
Definition unpack_files (s : bytes) (top : bytes) (w : pworld) : bool * pworld :=
  match parse_files s with
  | None => (false, w)
  | Some l =>
      let '(b, w) := match sys_stat w top with (Missing, w) => mkdir_all top 493 w | (_, w) => (true, w) end in
      if b then unpack_loop l top w else (false, w)
  end.

Context `{C : Crypto}.
Definition archive_type : bytes := bs "PASSCRYPT ARCHIVE".
(** [main], cmd/passcrypt/passcrypt.go:222-259: the contents of an archive. *)
Definition open_archive (arch : bytes) (w : pworld) : option bytes * pworld :=
  match sys_read arch w with
  | (None, w) => (None, w)
  | (Some (_, d), w) =>
      match match pem_decode d with Some (ty, b) => if decide (ty = archive_type) then Some b else None | None => Some d end with
      | None => (None, w)
      | Some d =>
          if decide (length d <= 32)%nat then (None, w) else
          match q_pass w with
          | (None, w) => (None, w)
          | (Some pass, w) =>
              match derive_key pass (take 32 d) with
              | None => (None, w)
              | key => match decrypt key (drop 32 d) with Ret r => (r, w) | Panic => (None, w) end
              end
          end
      end
  end.
(** [main] with -u, and with -l (cmd/passcrypt/passcrypt.go:262-284). The flag says
    whether it ends without an error. *)
Definition pc_unpack (arch top : bytes) (w : pworld) : bool * pworld :=
  match open_archive arch w with (None, w) => (false, w) | (Some s, w) => unpack_files s top w end.
Definition manifest_line (x : file) : bytes := x09 :: fPath x ++ (if is_dir (fMode x) then [x2f] else []) ++ [x0a].
Definition pc_list (arch : bytes) (w : pworld) : bool * pworld :=
  match open_archive arch w with
  | (None, w) => (false, w)
  | (Some s, w) =>
      match parse_files s with
      | None => (false, w)
      | Some l => (true, q_print w (bs "Manifest for " ++ arch ++ [x0a; x0a] ++ flat_map manifest_line l))
      end
  end.
(** [main] when packing, cmd/passcrypt/passcrypt.go:289-338. *)
Definition pc_pack (paths : list bytes) (armour : bool) (out : bytes) (w : pworld) : bool * pworld :=
  if decide (paths = []) then (true, w) else
  match q_pass w with
  | (None, w) => (false, w)
  | (Some pass, w) =>
      let '(salt, g) := rand 32 (qRng w) in
      let w := set_qrng w g in
      match salt with
      | None => (false, w)
      | Some salt =>
          match derive_key pass salt with
          | None => (false, w)
          | key =>
              match pack_roots paths w with
              | (None, w) => (false, w)
              | (Some l, w) =>
                  match der_files l with
                  | None => (false, w)
                  | Some s =>
                      match encrypt key s (qRng w) with
                      | Ret (Some e, g) =>
                          let w := set_qrng w g in
                          let d := salt ++ e in
                          let d := if armour then pem_encode archive_type [] d else d in
                          match sys_open true out 420 w with
                          | (None, w) => (false, w)
                          | (Some l, w) => sys_write l d w
                          end
                      | Ret (None, g) => (false, set_qrng w g)
                      | Panic => (false, w)
                      end
                  end
              end
          end
      end
  end.
End WithGzip.

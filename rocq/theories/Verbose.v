(** Model of cmd/passcrypt/passcrypt.go with its variable [verbose]: what -v adds to the
    output of [Passcrypt]'s functions, which are those of the same names. No proofs here. *)
From Verif Require Export Mains Passcrypt.
Local Open Scope Z_scope.

Section Verbose.
Context (G : gzip) (verbose : bool).
(** [if verbose { fmt.Println(s, path) }]; [s] with the space. *)
Definition tell (s path : bytes) (w : pworld) : pworld := if verbose then q_print w (s ++ path ++ [x0a]) else w.

(** [filepath.Walk] with [walker], cmd/passcrypt/passcrypt.go:108-135: the path is printed
    as it was walked, before a file is read (and after the names in a directory are,
    which the output does not show). *)
Fixpoint walk_v (f : nat) (p : bytes) (n : node) (w : pworld) : option (list file) * pworld :=
  match f with
  | O => (None, w)
  | S f =>
      match n with
      | Other => (Some [], w)
      | Reg _ _ => match pack_file G p (tell (bs "Pack file ") p w) with (Some x, w) => (Some [x], w) | (None, w) => (None, w) end
      | Dir m =>
          let x := File (clean p) (ModeDir + m) [] in
          match sys_names p (tell (bs "Pack directory ") p w) with
          | (None, w) => (Some [x], w)
          | (Some names, w) =>
              match
                (fix go (names : list bytes) (w : pworld) : option (list file) * pworld :=
                   match names with
                   | [] => (Some [], w)
                   | c :: names =>
                       match sys_stat w (fjoin p c) with
                       | (Found n, w) =>
                           match walk_v f (fjoin p c) n w with
                           | (None, w) => (None, w)
                           | (Some a, w) => match go names w with (Some b, w) => (Some (a ++ b), w) | (None, w) => (None, w) end
                           end
                       | (_, w) => (None, w)
                       end
                   end) names w
              with
              | (Some l, w) => (Some (x :: l), w)
              | (None, w) => (None, w)
              end
          end
      end
  end.
(** [packFiles], cmd/passcrypt/passcrypt.go:104-149, before [asn1.Marshal]. *)
Fixpoint roots_v (paths : list bytes) (w : pworld) : option (list file) * pworld :=
  match paths with
  | [] => (Some [], w)
  | p :: paths =>
      match sys_stat w p with
      | (Found n, w) =>
          match walk_v (S (size (qFs w))) p n w with
          | (None, w) => (None, w)
          | (Some a, w) => match roots_v paths w with (Some b, w) => (Some (a ++ b), w) | (None, w) => (None, w) end
          end
      | (_, w) => (None, w)
      end
  end.
(** The loop of [unpackFiles] and the whole, cmd/passcrypt/passcrypt.go:151-199. *)
Fixpoint loop_v (l : list file) (top : bytes) (w : pworld) : bool * pworld :=
  match l with
  | [] => (true, w)
  | x :: l => let '(b, w) := unpack_one G x top (tell (bs "Unpack ") (fPath x) w) in if b then loop_v l top w else (false, w)
  end.
Definition unpack_v (s : bytes) (top : bytes) (w : pworld) : bool * pworld :=
  match parse_files s with
  | None => (false, w)
  | Some l =>
      let '(b, w) := match sys_stat w top with (Missing, w) => mkdir_all top 493 w | (_, w) => (true, w) end in
      if b then loop_v l top w else (false, w)
  end.

Context `{C : Crypto}.
(** [main] with -u (cmd/passcrypt/passcrypt.go:262-267), and when packing (289-338). *)
Definition pcv_unpack (arch top : bytes) (w : pworld) : bool * pworld :=
  match open_archive arch w with (None, w) => (false, w) | (Some s, w) => unpack_v s top w end.
Definition pcv_pack (paths : list bytes) (armour : bool) (out : bytes) (w : pworld) : bool * pworld :=
  if decide (paths = []) then (true, w) else
  match q_pass w with
  | (None, w) => (false, w)
  | (Some pass, w) =>
      let '(salt, g) := rand 32 (qRng w) in
      let w := set_qrng w g in
      match salt with
      | None => (false, w)
      | Some salt =>
          match derive_key pass salt with
          | None => (false, w)
          | key =>
              match roots_v paths w with
              | (None, w) => (false, w)
              | (Some l, w) =>
                  match der_files l with
                  | None => (false, w)
                  | Some s =>
                      match encrypt key s (qRng w) with
                      | Ret (Some e, g) =>
                          let w := set_qrng w g in
                          let d := salt ++ e in
                          let d := if armour then pem_encode archive_type [] d else d in
                          match sys_open true out 420 w with
                          | (None, w) => (false, w)
                          | (Some l, w) => sys_write l d w
                          end
                      | Ret (None, g) => (false, set_qrng w g)
                      | Panic => (false, w)
                      end
                  end
              end
          end
      end
  end.
End Verbose.

(** [main], cmd/passcrypt/passcrypt.go:201-339, with -v. *)
Definition passcrypt_says `{Crypto} (G : gzip) (args : list bytes) (w : pworld) : bool * pworld :=
  match parse_flags no_times passcrypt_formal args with
  | Helped => (true, w)
  | Refused => (false, w)
  | Parsed f rest =>
      let v := bool_flag f (bs "v") in
      if bool_flag f (bs "V") then (true, q_print w (bs "passcrypt version " ++ version ++ [x0a])) else
      if bool_flag f (bs "u") || bool_flag f (bs "l") then
        match rest with
        | [arch] => if bool_flag f (bs "u") then pcv_unpack G v arch (text_flag f (bs "o")) w else pc_list arch w
        | _ => (false, w)
        end
      else pcv_pack G v rest (bool_flag f (bs "a")) (text_flag f (bs "f")) w
  end.

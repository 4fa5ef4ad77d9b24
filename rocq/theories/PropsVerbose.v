(** Property C90: what passcrypt -v prints. *)
From Verif Require Export VerboseFacts PropsPasscrypt.
Local Open Scope Z_scope.

(** -v changes nothing but the output; without it the command is that of C63 to C65. *)
Theorem C90_same_effect :
  forall (C : Crypto) (G : gzip) args w b w',
    passcrypt_says G args w = (b, w') -> exists w0, passcrypt_command G args w = (b, w0) /\ same_but_output w' w0.
Proof. exact @says_same. Qed.
Print Assumptions C90_same_effect.

Theorem C90_quiet :
  forall (C : Crypto) (G : gzip) args w,
    (forall set rest, line_sets no_duration passcrypt_opts args set rest -> on set (bs "v") = false) ->
    passcrypt_says G args w = passcrypt_command G args w.
Proof. exact @says_quiet. Qed.
Print Assumptions C90_quiet.

Theorem C90_line :
  forall (C : Crypto) (G : gzip) args w set rest,
    line_sets no_duration passcrypt_opts args set rest ->
    passcrypt_says G args w =
      if on set (bs "V") then (true, q_print w (bs "passcrypt version 1.1.0" ++ [x0a])) else
      if on set (bs "u") || on set (bs "l") then
        match rest with
        | [arch] => if on set (bs "u") then pcv_unpack G (on set (bs "v")) arch (given set (bs "o") (bs ".")) w else pc_list arch w
        | _ => (false, w)
        end
      else pcv_pack G (on set (bs "v")) rest (on set (bs "a")) (given set (bs "f") (bs "passcrypt.enc")) w.
Proof. exact @says_line. Qed.
Print Assumptions C90_line.

(** Packing: a line for each entry, in the order of the archive; only the first of each
    path stands under the path as it was typed. *)
Theorem C90_pack :
  forall (C : Crypto) (G : gzip) paths armour out w b w',
    ready w -> pcv_pack G true paths armour out w = (b, w') ->
    exists w0, pc_pack G paths armour out w = (b, w0) /\ same_but_output w' w0 /\
      (exists ls, Forall packing_line ls /\ qOut w' = qOut w ++ concat ls) /\
      (b = true -> exists ess, length ess = length paths /\ qOut w' = qOut w ++ concat (zip_with packing_all paths ess) /\
         forall i p es, paths !! i = Some p -> ess !! i = Some es -> exists cut, listing G (qFs w) (loc w p) p cut es /\ (qFate w = [] -> cut = [])).
Proof. exact @pack_claim. Qed.
Print Assumptions C90_pack.

(** Unpacking: the lines of the entries up to and with the one that fails. *)
Theorem C90_unpack :
  forall (C : Crypto) (L : CryptoLaws) (G : gzip) arch top w b w',
    ready w -> pcv_unpack G true arch top w = (b, w') ->
    exists w0, pc_unpack G arch top w = (b, w0) /\ same_but_output w' w0 /\
      ((b = false /\ qOut w' = qOut w /\ qOut w0 = qOut w) \/
       exists es es0, holds_entries w arch es /\ es0 `prefix_of` es /\ (b = true -> es0 = es) /\ (b = false -> es0 <> []) /\
         qOut w' = qOut w ++ concat (map unpacking es0) /\ qOut w0 = qOut w ++ concat (map dir_line es0)).
Proof. exact @unpack_claim. Qed.
Print Assumptions C90_unpack.

(** The lines do not determine what was unpacked: a name may hold line breaks. *)
Theorem C90_forged_refuted :
  forall (C : Crypto) (L : CryptoLaws) (G : gzip) a b m m' d d' top w1 w2 w1' w2' arch,
    ready w1 -> ready w2 -> qOut w1 = qOut w2 -> Z.testbit m 31 = false -> Z.testbit m' 31 = false ->
    holds_entries w1 arch [File a m d; File b m' d'] -> holds_entries w2 arch [File (a ++ x0a :: bs "Unpack " ++ b) m d] ->
    pcv_unpack G true arch top w1 = (true, w1') -> pcv_unpack G true arch top w2 = (true, w2') -> qOut w1' = qOut w2'.
Proof. exact @forged_claim. Qed.
Print Assumptions C90_forged_refuted.

Definition xv_nl : bytes := [x0a].
Example C90_nonvacuous :
  (* packing "./a/": the first line has the path as typed *)
  qOut (snd (pcv_pack (C:=toy) xp_gz true [bs "./a/"; bs "l"] false (bs "o") (xp_w xp_tree []))) = bs "Pack directory ./a/" ++ xv_nl ++ bs "Pack file a/f" ++ xv_nl /\
  (* the file cannot be read *)
  (let r := pcv_pack (C:=toy) xp_gz true [bs "a"] false (bs "o") (xp_w xp_tree [None; None; None; Some O]) in fst r = false /\ qOut (snd r) = bs "Pack directory a" ++ xv_nl ++ bs "Pack file a/f" ++ xv_nl) /\
  (* unpacking, with and without -v *)
  (let r := passcrypt_says (H:=toy) xp_gz [bs "-v"; bs "-u"; bs "-o"; bs "x"; bs "o"] (xp_w (xp_put (xp_packed false) xp_tree) []) in fst r = true /\ qOut (snd r) = bs "Unpack a" ++ xv_nl ++ bs "Directory: a" ++ xv_nl ++ bs "Unpack a/f" ++ xv_nl) /\
  (let r := passcrypt_says (H:=toy) xp_gz [bs "-u"; bs "-o"; bs "x"; bs "o"] (xp_w (xp_put (xp_packed false) xp_tree) []) in fst r = true /\ qOut (snd r) = bs "Directory: a" ++ xv_nl) /\
  (* one file or two *)
  (let es := [File (bs "p") 420 (bs "!"); File (bs "q") 420 (bs "?")] in let r := pcv_unpack (C:=toy) xp_gz true (bs "o") (bs "x") (xp_w (xp_put (xp_arch es) xp_tree) []) in fst r = true /\ qOut (snd r) = bs "Unpack p" ++ xv_nl ++ bs "Unpack q" ++ xv_nl) /\
  (let es := [File (bs "p" ++ x0a :: bs "Unpack " ++ bs "q") 420 (bs "!")] in let r := pcv_unpack (C:=toy) xp_gz true (bs "o") (bs "x") (xp_w (xp_put (xp_arch es) xp_tree) []) in fst r = true /\ qOut (snd r) = bs "Unpack p" ++ xv_nl ++ bs "Unpack q" ++ xv_nl).
Proof. vm_compute. repeat split. Qed.

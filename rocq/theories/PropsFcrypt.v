(** Property C68: fcrypt. *)
From Verif Require Export FcryptFiles PropsKeyStore.
From Verif Require Import FcryptLine.
Local Open Scope Z_scope.

(** For the examples: a key store in a file, the choices of Go's maps, and runs. *)
Definition xf_store : bytes :=
  match kd2 with
  | Some s => match ks_lock_with (C:=toy) s (bs "pw") (map Some (replicate 56 x0a)) with Ret (_, s', _, _) => ks_dump s' | Panic => [] end
  | None => []
  end.
Definition xf_ord : korder := match kd2 with Some s => kd_order s | None => [] end.
Definition xf_o (o3 : korder) : forders := FO xf_ord xf_ord o3 (fun _ => xf_ord) (fun _ _ => xf_ord) xf_ord xf_ord (fun _ => xf_ord) 9.
Definition xf_fs : fs := <[bs "db" := xf_store]> {[bs "msg" := bs "hello"]}.
Definition xf_w (f : fs) (i : list bytes) (fate : list wfate) : world := World f (map typed i) [Some (bs "pw")] [1; 2; 3; 4; 5; 6; 7; 8] (map Some (replicate 56 x0b)) fate [].
Definition xf_none : fflags := FFlags false false false false false false (bs "db") false (bs "self") false false false false [].
Definition xf_flags (k : fcmd) (a : bool) (label : bytes) (args : list bytes) : fflags :=
  FFlags (bool_decide (k = FCheck)) (bool_decide (k = FExport) || bool_decide (k = FExportSelf)) (bool_decide (k = FImport) || bool_decide (k = FUImport)) a
    (bool_decide (k = FDecrypt)) (bool_decide (k = FEncrypt) || bool_decide (k = FCryptSign)) (bs "db") (bool_decide (k = FList)) label
    (bool_decide (k = FRemove)) (bool_decide (k = FSign) || bool_decide (k = FCryptSign)) (bool_decide (k = FUImport)) (bool_decide (k = FVerify)) args.
Definition xf_run (k : fcmd) (a : bool) (label : bytes) (args : list bytes) (f : fs) (i : list bytes) (fate : list wfate) : res report :=
  fc_main (C:=toy) 9 (xf_o xf_ord) (xf_flags k a label args) (xf_w f i fate).
Definition xf_done (r : res report) (p : report -> world -> bool) : bool := match r with Done rep w => p rep w | _ => false end.
Definition xf_fails (r : res report) : bool := match r with Fail _ => true | _ => false end.
(** C68. What fcrypt does to its key store, and to the files it is given. *)
Theorem C68_files :
  forall (C : Crypto) (L : CryptoLaws) f o l w w' p,
    ends (fc_main f o l w) w' -> wFs w' !! p <> wFs w !! p ->
    exists k a s, chosen l = Some (k, a) /\ key_file (wFs w) (lPath l) s /\
      (out_path k (lArgs l) = Some p \/ p = lPath l /\ (mutates k \/ k = FCheck /\ ksExport s = None)).
Proof. exact @fcr_files. Qed.
Print Assumptions C68_files.

Theorem C68_failing :
  forall (C : Crypto) (L : CryptoLaws) f o l w w',
    disk_ok w -> fc_main f o l w = Fail w' \/ fc_main f o l w = Crash w' -> wFs w' = wFs w.
Proof. exact @fcr_failing. Qed.
Print Assumptions C68_failing.

Theorem C68_no_store :
  forall (C : Crypto) f o l k a w,
    chosen l = Some (k, a) -> (arguments k <= length (lArgs l))%nat -> lPath l = [] \/ wFs w !! lPath l = None ->
    exists w', wFs w' = wFs w /\
      (starved (wRng w) 64 -> fc_main f o l w = Fail w') /\ (~ starved (wRng w) 64 -> fc_main f o l w = Crash w').
Proof. exact @fcr_absent. Qed.
Print Assumptions C68_no_store.

Theorem C68_too_few :
  forall (C : Crypto) f o l k a w,
    chosen l = Some (k, a) -> (length (lArgs l) < arguments k)%nat -> fc_main f o l w = Fail w.
Proof. exact @fcr_few. Qed.
Print Assumptions C68_too_few.

Theorem C68_no_command :
  forall (C : Crypto) f o l w,
    chosen l = None -> fc_main f o l w = Done RNone w.
Proof. exact @fcr_nothing. Qed.
Print Assumptions C68_no_command.

Theorem C68_remove :
  forall (C : Crypto) f o l a label rest s w,
    key_file (wFs w) (lPath l) s -> chosen l = Some (FRemove, a) -> lArgs l = label :: rest -> disk_ok w ->
    let t := nth 2 (wClk w) 0 in
    (label = bs "self" \/ ~ kpresent s label -> exists w', fc_main f o l w = Fail w' /\ wFs w' = wFs w) /\
    (label <> bs "self" -> kpresent s label -> exists s' w', fc_main f o l w = Done RNone w' /\ without s label s' /\
       wFs w' = <[lPath l := ks_dump (at_time s' t)]> (wFs w) /\ wPw w' = wPw w /\ wIn w' = wIn w /\ wOut w' = wOut w /\
       (int64 t -> t <> 0 -> key_file (wFs w') (lPath l) (at_time s' t))).
Proof. exact @fcr_removing. Qed.
Print Assumptions C68_remove.

Theorem C68_torn_refuted :
  forall (C : Crypto) f o l a label rest s w fates,
    key_file (wFs w) (lPath l) s -> chosen l = Some (FRemove, a) -> lArgs l = label :: rest ->
    label <> bs "self" -> kpresent s label -> wFate w = WPartial 0 :: fates ->
    exists w', fc_main f o l w = Fail w' /\ wFs w' = <[lPath l := []]> (wFs w) /\ forall s', ~ key_file (wFs w') (lPath l) s'.
Proof. exact @fcr_torn. Qed.
Print Assumptions C68_torn_refuted.

Theorem C68_import :
  forall (C : Crypto) (L : CryptoLaws) f o l a s w rep w',
    key_file (wFs w) (lPath l) s -> kwell s -> an_order s (foOne o) -> an_order s (foTwo o) ->
    chosen l = Some (FImport, a) -> lArgs l <> [] -> fc_main f o l w = Done rep w' ->
    exists pass s1 data label v s2 t n who, wPw w = Some pass :: wPw w' /\ ks_unlock (nth 2 (wClk w) 0) s pass = Ret (true, s1) /\ opened s s1 /\
      fst (w_read w (nth 0 (lArgs l) [])) = Some data /\ parse_verified_key data = Some v /\
      (lLabel l <> bs "self" /\ label = lLabel l \/ lLabel l = bs "self" /\ exists i, read_line (wIn (snd (w_read w (nth 0 (lArgs l) [])))) = (Some label, i)) /\
      wOut w' = wOut w ++ bs "Imported public key signed by '" ++ who ++ bs "'." ++ [x0a] /\
      (an_order s2 (foThree o) -> vSigner v = owner s2 /\ who = bs "self" \/ vSigner v <> owner s2 /\ exists k y, krecord s2 k y /\ subject y = vSigner v /\ krLabel y = who) /\
      importable s1 label v /\ added s1 label (KRec label 1 n (Some (vPublic v)) (Some (vSig v)) (Some (vSigner v)) (vTime v) None) s2 /\
      wFs w' = <[lPath l := ks_dump (at_time s2 t)]> (wFs w) /\ t = nth 4 (wClk w) 0 /\
      (good_clock w -> t <> 0 -> utf8_text label -> key_file (wFs w') (lPath l) (closed_copy (at_time s2 t))).
Proof. exact @fcr_importing. Qed.
Print Assumptions C68_import.

Theorem C68_import_certain :
  forall (C : Crypto) (L : CryptoLaws) f o l a s w pass ps s1 p data v rest,
    key_file (wFs w) (lPath l) s -> kwell s -> chosen l = Some (FImport, a) ->
    lArgs l = p :: rest -> plain_path p -> wFs w !! p = Some data -> parse_verified_key data = Some v -> lLabel l <> bs "self" ->
    wPw w = Some pass :: ps -> ks_unlock (nth 2 (wClk w) 0) s pass = Ret (true, s1) -> distinct_keys s1 -> importable s1 (lLabel l) v ->
    an_order s (foOne o) -> an_order s (foTwo o) -> (forall r s2, added s1 (lLabel l) r s2 -> an_order s2 (foThree o)) -> disk_ok w ->
    exists w', fc_main f o l w = Done RNone w'.
Proof. exact @fcr_import_certain. Qed.
Print Assumptions C68_import_certain.

Theorem C68_untrusted :
  forall (C : Crypto) (L : CryptoLaws) f o l a s w rep w',
    key_file (wFs w) (lPath l) s -> chosen l = Some (FUImport, a) -> lArgs l <> [] -> fc_main f o l w = Done rep w' ->
    exists pass s1 data v s2 t pre ls, let i := wIn (snd (w_read w (nth 0 (lArgs l) []))) in
      wPw w = Some pass :: wPw w' /\ ks_unlock (nth 2 (wClk w) 0) s pass = Ret (true, s1) /\ opened s s1 /\
      fst (w_read w (nth 0 (lArgs l) [])) = Some data /\ parse_verified_key data = Some v /\
      wOut w' = wOut w ++ pre ++ bs "Fingerprint: " ++ hex_encode (sha256 (vPublic v)) ++ [x0a] /\
      wFs w' = <[lPath l := ks_dump (at_time s2 t)]> (wFs w) /\ Forall (fun y => y <> bs "yes" /\ y <> bs "no") ls /\
      (s2 = s1 /\ (exists i1 i2, hears i ls i1 /\ read_line i1 = (None, i2)) \/
       exists label sig n1 n2 i1, hears i (ls ++ [bs "yes"]) i1 /\ label <> bs "self" /\
         (lLabel l <> bs "self" /\ label = lLabel l \/ lLabel l = bs "self" /\ exists i2, read_line i1 = (Some label, i2)) /\
         ~ kpresent s1 label /\ length (vPublic v) = 64%nat /\ certified (vPublic v) (owner s1) n1 sig /\
         added s1 label (KRec label 0 n2 (Some (vPublic v)) (Some sig) (ksPub s1) n1 (Some ∅)) s2).
Proof. exact @fcr_uimporting. Qed.
Print Assumptions C68_untrusted.

Theorem C68_untrusted_silent_refuted :
  forall (C : Crypto) (L : CryptoLaws) f o l a s w pass ps s1 p data v rest i,
    key_file (wFs w) (lPath l) s -> chosen l = Some (FUImport, a) ->
    lArgs l = p :: rest -> plain_path p -> wFs w !! p = Some data -> parse_verified_key data = Some v ->
    wPw w = Some pass :: ps -> ks_unlock (nth 2 (wClk w) 0) s pass = Ret (true, s1) -> disk_ok w -> read_line (wIn w) = (None, i) ->
    exists w', fc_main (S f) o l w = Done RNone w' /\ wFs w' = <[lPath l := ks_dump (at_time s1 (nth 3 (wClk w) 0))]> (wFs w).
Proof. exact @fcr_silence. Qed.
Print Assumptions C68_untrusted_silent_refuted.

Theorem C68_untrusted_refused :
  forall (C : Crypto) (L : CryptoLaws) f o l a s w pass ps s1 p data v rest ls i,
    key_file (wFs w) (lPath l) s -> chosen l = Some (FUImport, a) ->
    lArgs l = p :: rest -> plain_path p -> wFs w !! p = Some data -> parse_verified_key data = Some v ->
    wPw w = Some pass :: ps -> ks_unlock (nth 2 (wClk w) 0) s pass = Ret (true, s1) -> disk_ok w ->
    hears (wIn w) (ls ++ [bs "no"]) i -> Forall (fun x => x <> bs "yes" /\ x <> bs "no") ls -> (length ls < f)%nat ->
    exists w', fc_main f o l w = Fail w' /\ wFs w' = wFs w.
Proof. exact @fcr_refused. Qed.
Print Assumptions C68_untrusted_refused.

Theorem C68_untrusted_agreed :
  forall (C : Crypto) (L : CryptoLaws) f o l a s w pass ps s1 p data v rest ls i label d seed,
    key_file (wFs w) (lPath l) s -> chosen l = Some (FUImport, a) ->
    lArgs l = p :: rest -> plain_path p -> wFs w !! p = Some data -> parse_verified_key data = Some v ->
    wPw w = Some pass :: ps -> ks_unlock (nth 2 (wClk w) 0) s pass = Ret (true, s1) -> ksPriv s1 = Some (keypair d seed) -> length seed = 32%nat -> disk_ok w ->
    hears (wIn w) (ls ++ [bs "yes"]) i -> Forall (fun x => x <> bs "yes" /\ x <> bs "no") ls -> (length ls < f)%nat ->
    (lLabel l <> bs "self" /\ label = lLabel l \/ lLabel l = bs "self" /\ exists i2, read_line i = (Some label, i2)) ->
    label <> bs "self" -> ~ kpresent s1 label -> length (vPublic v) = 64%nat ->
    exists w' s2 r, fc_main f o l w = Done RNone w' /\ added s1 label r s2 /\ subject r = vPublic v /\ signer r = owner s1 /\
      wFs w' = <[lPath l := ks_dump (at_time s2 (nth 5 (wClk w) 0))]> (wFs w).
Proof. exact @fcr_agreed. Qed.
Print Assumptions C68_untrusted_agreed.

Theorem C68_check :
  forall (C : Crypto) (L : CryptoLaws) f o l a s w rep w',
    key_file (wFs w) (lPath l) s -> chosen l = Some (FCheck, a) -> (forall k r, krecord s k r -> krLabel r <> bs "self") ->
    (forall i, orders s (foChains o i)) -> an_order s (foAudit o) -> fc_main f o l w = Done rep w' ->
    exists pass s1, wPw w = Some pass :: wPw w' /\ ks_unlock (nth 2 (wClk w) 0) s pass = Ret (true, s1) /\ opened s s1 /\
      (forall k, kpresent s k -> k = bs "self" \/ trusted s1 k) /\ wOut w' = wOut w /\
      (ksExport s <> None -> wFs w' = wFs w) /\
      (ksExport s = None -> wFs w' = <[lPath l := ks_dump (at_time s1 (nth 3 (wClk w) 0))]> (wFs w)).
Proof. exact @fcr_checking. Qed.
Print Assumptions C68_check.

Theorem C68_orphan :
  forall (C : Crypto) (L : CryptoLaws) f o l a s w rep w' k,
    key_file (wFs w) (lPath l) s -> chosen l = Some (FCheck, a) -> kwell s -> (forall i, orders s (foChains o i)) -> an_order s (foAudit o) ->
    (forall pass n s1, ks_unlock n s pass = Ret (true, s1) -> orphan s1 k) -> fc_main f o l w <> Done rep w'.
Proof. exact @fcr_orphaned. Qed.
Print Assumptions C68_orphan.

Theorem C68_removal_orphans :
  forall s label s' k r x,
    without s label s' -> krecord s label x -> krecord s k r -> k <> label -> k <> bs "self" -> signer r = subject x -> signer r <> owner s ->
    (forall k' y, krecord s k' y -> subject y = subject x -> k' = label) -> orphan s' k.
Proof. exact @fcr_removal_orphans. Qed.
Print Assumptions C68_removal_orphans.

Theorem C68_list :
  forall (C : Crypto) f o l a s w m,
    key_file (wFs w) (lPath l) s -> chosen l = Some (FList, a) -> kwell s -> ksKeys s = Some m -> an_order s (foList o) -> orders s (foListFind o) ->
    exists lines w', fc_main f o l w = Done (RList (ksTime s) (size m) (hex_encode (sha256 (owner s))) lines) w' /\
      Forall2 (line_of s) (foList o) lines /\ wFs w' = wFs w /\ wPw w' = wPw w.
Proof. exact @fcr_listing. Qed.
Print Assumptions C68_list.

Theorem C68_export_self :
  forall (C : Crypto) f o a l w p rest s cert,
    key_file (wFs w) (lPath l) s -> chosen l = Some (FExportSelf, a) -> lArgs l = p :: rest -> plain_path p -> disk_ok w ->
    ksExport s = Some cert -> exists w', fc_main f o l w = Done RNone w' /\ wFs w' = <[p := cert]> (wFs w) /\ wPw w' = wPw w.
Proof. exact @fcr_exporting. Qed.
Print Assumptions C68_export_self.

Theorem C68_export :
  forall (C : Crypto) (L : CryptoLaws) f o a l w p rest s rep w',
    key_file (wFs w) (lPath l) s -> chosen l = Some (FExport, a) -> lArgs l = p :: rest -> plain_path p ->
    orders s (foChain o) -> (forall k r, krecord s k r -> krLabel r <> bs "self") -> fc_main f o l w = Done rep w' ->
    exists s1 r sig, let t := nth 3 (wClk w) 0 in
      passes w s s1 /\ opened s s1 /\ krecord s (lLabel l) r /\ trusted s1 (lLabel l) /\
      sign (ksPriv s1) (subject r ++ owner s1 ++ be 8 (t mod 2 ^ 64)) = Ret (Some sig) /\
      wFs w' = <[p := serialise (VKey (subject r) (owner s1) t sig)]> (wFs w) /\ wOut w' = wOut w /\ wPw w' = drop 1 (wPw w).
Proof. exact @fcr_exported. Qed.
Print Assumptions C68_export.

Theorem C68_export_certain :
  forall (C : Crypto) (L : CryptoLaws) f o a l w p rest s s1 d seed r,
    key_file (wFs w) (lPath l) s -> chosen l = Some (FExport, a) -> lArgs l = p :: rest -> plain_path p -> disk_ok w ->
    passes w s s1 -> holds_pair s1 d seed -> length d = 32%nat -> length seed = 32%nat -> krecord s (lLabel l) r ->
    verify_chain (foChain o) (foRounds o) s1 (lLabel l) = Ret (Some true) -> zlen (subject r) < 2 ^ 29 -> int64 (nth 3 (wClk w) 0) ->
    exists text v w', fc_main f o l w = Done RNone w' /\ wFs w' = <[p := text]> (wFs w) /\ parse_verified_key text = Some v /\
      vPublic v = subject r /\ vSigner v = pub_of d seed /\ vTime v = nth 3 (wClk w) 0 /\ certified (vPublic v) (vSigner v) (vTime v) (vSig v).
Proof. exact @fcr_export_certain. Qed.
Print Assumptions C68_export_certain.

Theorem C68_export_import :
  forall (C : Crypto) (L : CryptoLaws) f o a l w p rest s s1 d seed r,
    key_file (wFs w) (lPath l) s -> chosen l = Some (FExport, a) -> lArgs l = p :: rest -> plain_path p -> disk_ok w ->
    passes w s s1 -> holds_pair s1 d seed -> length d = 32%nat -> length seed = 32%nat -> krecord s (lLabel l) r ->
    verify_chain (foChain o) (foRounds o) s1 (lLabel l) = Ret (Some true) -> zlen (subject r) < 2 ^ 29 -> int64 (nth 3 (wClk w) 0) ->
    exists text w', fc_main f o l w = Done RNone w' /\ wFs w' = <[p := text]> (wFs w) /\
      forall f2 o2 a2 l2 p2 rest2 w2 t t1 pass ps x who, key_file (wFs w2) (lPath l2) t -> kwell t -> chosen l2 = Some (FImport, a2) ->
        lArgs l2 = p2 :: rest2 -> plain_path p2 -> wFs w2 !! p2 = Some text -> lLabel l2 <> bs "self" ->
        wPw w2 = Some pass :: ps -> ks_unlock (nth 2 (wClk w2) 0) t pass = Ret (true, t1) -> distinct_keys t1 -> ~ kpresent t1 (lLabel l2) ->
        pub_of d seed = owner t1 \/ pub_of d seed <> owner t1 /\ krecord t1 who x /\ subject x = pub_of d seed /\ who <> [] /\ endorsed t1 who ->
        an_order t (foOne o2) -> an_order t (foTwo o2) -> (forall y t2, added t1 (lLabel l2) y t2 -> an_order t2 (foThree o2)) -> disk_ok w2 ->
        exists w3, fc_main f2 o2 l2 w2 = Done RNone w3.
Proof. exact @fcr_export_import. Qed.
Print Assumptions C68_export_import.

Theorem C68_verify :
  forall (C : Crypto) f o a l w p q s m text sig,
    on_files FVerify a l w p q s -> kwell s -> wFs w !! p = Some m -> wFs w !! q = Some text ->
    taken_as text (Some (bs "CRYPTUTIL SIGNATURE")) sig \/ taken_as text None sig ->
    exists w', fc_main f o l w = Done RNone w' /\ wFs w' = wFs w /\ wPw w' = wPw w /\
      (signed_by s (lLabel l) m sig -> wOut w' = wOut w ++ bs "Signature: OK" ++ [x0a]) /\
      (~ signed_by s (lLabel l) m sig -> wOut w' = wOut w ++ bs "Signature: INVALID" ++ [x0a]).
Proof. exact @fcr_verifying. Qed.
Print Assumptions C68_verify.

Theorem C68_sign_verify :
  forall (C : Crypto) (L : CryptoLaws) f o a l w p q s s1 m d seed,
    on_files FSign a l w p q s -> wFs w !! p = Some m -> passes w s s1 -> holds_pair s1 d seed ->
    length d = 32%nat -> length seed = 32%nat ->
    exists sig text w', fc_main f o l w = Done RNone w' /\ wFs w' = <[q := text]> (wFs w) /\ wOut w' = wOut w /\ wPw w' = drop 1 (wPw w) /\ length sig = 64%nat /\
      armoured_as a (bs "CRYPTUTIL SIGNATURE") sig text /\
      ((a = false -> ~ begins_like_armour sig) -> forall f2 o2 a2 l2 w2 p2 q2 s2, on_files FVerify a2 l2 w2 p2 q2 s2 -> kwell s2 ->
         wFs w2 !! p2 = Some m -> wFs w2 !! q2 = Some text -> key_under s2 (lLabel l2) (pub_of d seed) ->
         exists w3, fc_main f2 o2 l2 w2 = Done RNone w3 /\ wFs w3 = wFs w2 /\ wOut w3 = wOut w2 ++ bs "Signature: OK" ++ [x0a]).
Proof. exact @fcr_signing. Qed.
Print Assumptions C68_sign_verify.

Theorem C68_encrypt_decrypt :
  forall (C : Crypto) (L : CryptoLaws) f o a l w p q s m d seed ep nonce g',
    on_files FEncrypt a l w p q s -> wFs w !! p = Some m -> key_under s (lLabel l) (pub_of d seed) ->
    length d = 32%nat -> length seed = 32%nat -> 1 <= zlen m < 2 ^ 31 -> length ep = 32%nat -> length nonce = 24%nat -> delivers (wRng w) (ep ++ nonce) g' ->
    exists c text w', fc_main f o l w = Done RNone w' /\ wFs w' = <[q := text]> (wFs w) /\ wOut w' = wOut w /\ wPw w' = wPw w /\
      armoured_as a (bs "CRYPTUTIL ENCRYPTED MESSAGE") c text /\
      ((a = false -> ~ begins_like_armour c) -> forall f2 o2 a2 l2 w2 p2 q2 s2 s3, on_files FDecrypt a2 l2 w2 p2 q2 s2 -> wFs w2 !! p2 = Some text ->
         passes w2 s2 s3 -> holds_pair s3 d seed ->
         exists w3, fc_main f2 o2 l2 w2 = Done RNone w3 /\ wFs w3 = <[q2 := m]> (wFs w2) /\ wOut w3 = wOut w2).
Proof. exact @fcr_encrypting. Qed.
Print Assumptions C68_encrypt_decrypt.

Theorem C68_signcrypt :
  forall (C : Crypto) (L : CryptoLaws) f o a l w p q s s1 m da sda db sdb ep nonce g',
    on_files FCryptSign a l w p q s -> wFs w !! p = Some m -> passes w s s1 -> holds_pair s1 da sda ->
    knows s1 (lLabel l) db sdb -> length da = 32%nat -> length sda = 32%nat -> length db = 32%nat -> length sdb = 32%nat ->
    1 <= zlen m < 2 ^ 31 - 69 -> length ep = 32%nat -> length nonce = 24%nat -> delivers (wRng w) (ep ++ nonce) g' ->
    exists c w', fc_main f o l w = Done RNone w' /\ wFs w' = <[q := pem_encode (bs "CRYPTUTIL SIGNED AND ENCRYPTED MESSAGE") [] c]> (wFs w) /\ wOut w' = wOut w /\
      (forall f2 o2 a2 l2 w2 p2 q2 s2 s3, on_files FDecrypt a2 l2 w2 p2 q2 s2 -> wFs w2 !! p2 = Some (pem_encode (bs "CRYPTUTIL SIGNED AND ENCRYPTED MESSAGE") [] c) ->
         passes w2 s2 s3 -> holds_pair s3 db sdb -> knows s3 (lLabel l2) da sda ->
         exists w3, fc_main f2 o2 l2 w2 = Done RNone w3 /\ wFs w3 = <[q2 := m]> (wFs w2) /\ wOut w3 = wOut w2 ++ bs "Valid signature." ++ [x0a]) /\
      (~ begins_like_armour c -> forall f2 o2 a2 l2 w2 p2 q2 s2 s3 rep w3, on_files FDecrypt a2 l2 w2 p2 q2 s2 -> wFs w2 !! p2 = Some c ->
         passes w2 s2 s3 -> holds_pair s3 db sdb -> fc_main f2 o2 l2 w2 <> Done rep w3).
Proof. exact @fcr_signcrypting. Qed.
Print Assumptions C68_signcrypt.

Theorem C68_decrypt_sound :
  forall (C : Crypto) (L : CryptoLaws) f o a l w p q s rep w',
    on_files FDecrypt a l w p q s -> fc_main f o l w = Done rep w' ->
    exists s1 k d text c m, passes w s s1 /\ opened s s1 /\ ksPriv s1 = Some k /\ kD k = Some d /\ wFs w !! p = Some text /\ wFs w' = <[q := m]> (wFs w) /\
      ((taken_as text (Some (bs "CRYPTUTIL ENCRYPTED MESSAGE")) c \/ taken_as text None c) /\ wOut w' = wOut w /\
         (exists payload, opens_to d c payload /\ is_record m payload)
       \/ taken_as text (Some (bs "CRYPTUTIL SIGNED AND ENCRYPTED MESSAGE")) c /\ wOut w' = wOut w ++ bs "Valid signature." ++ [x0a] /\
         (exists sig r1 r2, opens_to d c (r1 ++ r2) /\ is_record m r1 /\ is_record sig r2 /\ signed_by s1 (lLabel l) m sig)).
Proof. exact @fcr_decrypting. Qed.
Print Assumptions C68_decrypt_sound.

Theorem C68_write_lost_refuted :
  forall (C : Crypto) (L : CryptoLaws) f o a l w p q s s1 m da sda db sdb ep nonce g' rest,
    key_file (wFs w) (lPath l) s -> chosen l = Some (FCryptSign, a) -> lArgs l = p :: q :: rest ->
    plain_path p -> plain_path q -> wFs w !! p = Some m -> passes w s s1 -> holds_pair s1 da sda ->
    knows s1 (lLabel l) db sdb -> length da = 32%nat -> length sda = 32%nat -> length db = 32%nat -> length sdb = 32%nat ->
    length ep = 32%nat -> length nonce = 24%nat -> delivers (wRng w) (ep ++ nonce) g' -> head (wFate w) = Some WFailOpen ->
    exists w', fc_main f o l w = Done RNone w' /\ wFs w' = wFs w.
Proof. exact @fcr_write_lost. Qed.
Print Assumptions C68_write_lost_refuted.

Theorem C68_never_chosen :
  forall l a,
    chosen l <> Some (FDecryptSigned, a).
Proof. exact @fcr_never_chosen. Qed.
Print Assumptions C68_never_chosen.

Theorem C68_signcrypt_armoured :
  forall l a,
    chosen l = Some (FCryptSign, a) -> a = true.
Proof. exact @fcr_signcrypt_armoured. Qed.
Print Assumptions C68_signcrypt_armoured.

Example C68_changes :
  xf_done (xf_run FRemove false (bs "self") [bs "carol"] xf_fs [] []) (fun _ w => negb (bool_decide (wFs w !! bs "db" = xf_fs !! bs "db"))) = true.
Proof. vm_compute. reflexivity. Qed.
Example C68_nonvacuous : exists s, key_file (C:=toy) xf_fs (bs "db") s.
Proof.
  pose proof C68_changes as H. destruct (xf_run FRemove false (bs "self") [bs "carol"] xf_fs [] []) as [rep w'| | |] eqn:E; try discriminate H.
  cbn [xf_done] in H. apply negb_true_iff, bool_decide_eq_false in H.
  destruct (fcr_files (L:=toy_laws) 9 (xf_o xf_ord) (xf_flags FRemove false (bs "self") [bs "carol"]) (xf_w xf_fs [] []) w' (bs "db")) as (k & a & s & _ & K & _);
    [left; exists rep; exact E|exact H|]. exists s. exact K.
Qed.
(** Each command, with and without armour, and what it is refused for. *)
Example C68_armoured :
  xf_done (xf_run FEncrypt true (bs "self") [bs "msg"; bs "out"] xf_fs [] []) (fun _ w =>
    xf_done (xf_run FDecrypt false (bs "self") [bs "out"; bs "back"] (wFs w) [] []) (fun _ w => bool_decide (wFs w !! bs "back" = Some (bs "hello")) && bool_decide (wOut w = []))) &&
  xf_done (xf_run FSign true (bs "self") [bs "msg"; bs "out"] xf_fs [] []) (fun _ w =>
    xf_done (xf_run FVerify false (bs "self") [bs "msg"; bs "out"] (wFs w) [] []) (fun _ w => bool_decide (wOut w = bs "Signature: OK" ++ [x0a])) &&
    xf_done (xf_run FVerify false (bs "bob") [bs "msg"; bs "out"] (wFs w) [] []) (fun _ w => bool_decide (wOut w = bs "Signature: INVALID" ++ [x0a]))) &&
  xf_done (xf_run FCryptSign false (bs "self") [bs "msg"; bs "out"] xf_fs [] []) (fun _ w =>
    xf_done (xf_run FDecrypt false (bs "self") [bs "out"; bs "back"] (wFs w) [] []) (fun _ w => bool_decide (wFs w !! bs "back" = Some (bs "hello")) && bool_decide (wOut w = bs "Valid signature." ++ [x0a])) &&
    xf_fails (xf_run FDecrypt false (bs "bob") [bs "out"; bs "back"] (wFs w) [] [])) = true.
Proof. vm_compute. reflexivity. Qed.
Example C68_bare :
  xf_done (xf_run FEncrypt false (bs "self") [bs "msg"; bs "out"] xf_fs [] []) (fun _ w =>
    xf_done (xf_run FDecrypt false (bs "bob") [bs "out"; bs "back"] (wFs w) [] []) (fun _ w => bool_decide (wFs w !! bs "back" = Some (bs "hello")))) &&
  xf_done (xf_run FSign false (bs "self") [bs "msg"; bs "out"] xf_fs [] []) (fun _ w =>
    xf_done (xf_run FVerify false (bs "self") [bs "msg"; bs "out"] (wFs w) [] []) (fun _ w => bool_decide (wOut w = bs "Signature: OK" ++ [x0a]))) = true.
Proof. vm_compute. reflexivity. Qed.
(** Writes that fail. *)
Example C68_lost :
  xf_done (xf_run FCryptSign false (bs "self") [bs "msg"; bs "out"] xf_fs [] [WFailOpen]) (fun _ w => bool_decide (wFs w !! bs "out" = None)) &&
  xf_fails (xf_run FEncrypt false (bs "self") [bs "msg"; bs "out"] xf_fs [] [WFailOpen]) = true.
Proof. vm_compute. reflexivity. Qed.
(** The audit: fine as it is; after bob's key is gone, carol's signer is. *)
Example C68_audit :
  xf_done (xf_run FCheck false (bs "self") [] xf_fs [] []) (fun _ w => bool_decide (wFs w !! bs "db" = Some xf_store)) &&
  xf_done (xf_run FRemove false (bs "self") [bs "bob"] xf_fs [] []) (fun _ w =>
    let ord := filter (fun kv => kv.1 <> bs "bob") xf_ord in
    let o := FO ord ord ord (fun _ => ord) (fun _ _ => ord) ord ord (fun _ => ord) 9 in
    xf_fails (fc_main (C:=toy) 9 o (xf_flags FCheck false (bs "self") []) (xf_w (wFs w) [] []))) &&
  xf_fails (xf_run FRemove false (bs "self") [bs "self"] xf_fs [] []) && xf_fails (xf_run FRemove false (bs "self") [bs "nobody"] xf_fs [] []) = true.
Proof. vm_compute. reflexivity. Qed.
(** Importing: carol's certificate under another label, with and without trust. *)
Definition xf_cert : bytes := pem_encode VerifiedKeyType [] (der_vkey (VKey (kdp x08) (kdp x06) 9 (ed_sign (replicate 32 x06 ++ ed_pub (Crypto:=toy) (replicate 32 x06)) (kdp x08 ++ kdp x06 ++ be 8 9)))).
Definition xf_count (f : fs) : option nat :=
  match load_kstore (C:=toy) f (bs "db") false 0 0 [] with Ret (Some s, _) => Some (length (kd_order s)) | _ => None end.
Example C68_imports :
  let f := <[bs "cert" := xf_cert]> xf_fs in
  xf_done (xf_run FImport false (bs "dave") [bs "cert"] f [] []) (fun _ w => bool_decide (xf_count (wFs w) = Some 3%nat) &&
    bool_decide (wOut w = bs "Imported public key signed by 'bob'." ++ [x0a])) &&
  xf_fails (xf_run FImport false (bs "bob") [bs "cert"] f [] []) &&
  xf_done (xf_run FUImport false (bs "dave") [bs "cert"] f [bs "yes"] []) (fun _ w => bool_decide (xf_count (wFs w) = Some 3%nat)) &&
  xf_done (xf_run FUImport false (bs "dave") [bs "cert"] f [] []) (fun _ w => bool_decide (xf_count (wFs w) = Some 2%nat)) &&
  xf_fails (xf_run FUImport false (bs "dave") [bs "cert"] f [bs "what"; bs "no"] []) = true.
Proof. vm_compute. reflexivity. Qed.
Example C68_lists :
  xf_done (xf_run FList false (bs "self") [] xf_fs [] []) (fun rep w => match rep with
    | RList _ n _ keys => bool_decide (n = 2%nat) && bool_decide (map (fun x => (liLabel x, liSigner x)) keys = map (fun kv => (kv.1, Some (if decide (kv.1 = bs "bob") then bs "self" else bs "bob"))) xf_ord)
    | RNone => false end) = true.
Proof. vm_compute. reflexivity. Qed.


Example C68_export_nonvacuous :
  xf_done (xf_run FExport false (bs "carol") [bs "out"] xf_fs [] []) (fun _ w =>
    match wFs w !! bs "out" with
    | Some text => match parse_verified_key text with Some v => (vTime v =? 4) && bool_decide (length (vPublic v) = 64%nat) | None => false end
    | None => false end &&
    xf_done (xf_run FRemove false (bs "self") [bs "carol"] (wFs w) [] []) (fun _ w =>
      let ord := filter (fun kv => kv.1 <> bs "carol") xf_ord in
      xf_done (fc_main (C:=toy) 9 (FO ord ord xf_ord (fun _ => ord) (fun _ _ => ord) ord ord (fun _ => ord) 9) (xf_flags FImport false (bs "carol") [bs "out"]) (xf_w (wFs w) [] []))
        (fun _ w => bool_decide (xf_count (wFs w) = Some 2%nat)))) &&
  xf_fails (xf_run FExport false (bs "nobody") [bs "out"] xf_fs [] []) && xf_fails (xf_run FExport false (bs "carol") [] xf_fs [] []) = true.
Proof. vm_compute. reflexivity. Qed.

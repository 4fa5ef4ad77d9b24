(** Properties C54, C55, C69, C70 and the PEM part of C25: the secrets command. *)
From Verif Require Export CmdSecretsClaims PemKeysFacts Toy.
Local Open Scope Z_scope.

(** For the examples: a store file under the toy primitives and a world around it. *)
Definition xs_store : sstore :=
  SStore 1 5 (Some {[ bs "mail" := Some (SRec (bs "mail") 3 (Some (bs "s1")) (Some {[ bs "user" := Some (bs "kyle") ]})) ]}) (Some (bs "pw")).
Definition xs_rng : rng := replicate 70 (Some x2a).
Definition xs_path : bytes := bs "f".
Definition xs_file (s : sstore) : bytes := match marshal_store (C:=toy) s 1 xs_rng with Ret (Some d, _, _) => d | _ => [] end.
Definition xs_world (ls : list bytes) (pw : list bytes) : world :=
  World (<[bs "g" := xs_file (SStore 1 5 (Some {[ bs "mail" := Some (SRec (bs "mail") 9 (Some (bs "s2")) None); bs "web" := Some (SRec (bs "web") 1 (Some (bs "s3")) None) ]}) (Some (bs "pw2")))]>
    {[ xs_path := xs_file xs_store ]}) (map typed ls) (map Some pw) [7; 8; 9] xs_rng [] [].
Definition xs_cfg (args : list bytes) (over meta : bool) : scfg := SCfg args true over meta.
(** The labels, times, secrets and metadata in the file after a run. *)
Definition xs_view (pass : bytes) (r : res unit) : option (list (bytes * (Z * option bytes * list (bytes * option bytes)))) :=
  match r with
  | Done _ w =>
      match wFs w !! xs_path with
      | Some d =>
          match unmarshal_store (C:=toy) d pass 1 with
          | Ret (Some s) => Some (map (fun kv => (fst kv, match snd kv with Some r => (rTime r, rSecret r, map_to_list (default ∅ (rMeta r))) | None => (0, None, []) end)) (map_to_list (recs s)))
          | _ => None
          end
      | None => None
      end
  | _ => None
  end.
Definition xs_run (x : scmd) (args : list bytes) (over meta : bool) (ls pw : list bytes) : res unit :=
  run_cmd (C:=toy) 9 1 x xs_path (xs_cfg args over meta) (xs_world ls pw).
Definition xs_same (r : res unit) : bool :=
  match r with Fail w | Crash w => bool_decide (wFs w !! xs_path = Some (xs_file xs_store)) | _ => false end.
(** C25. The PEM forms of locked keys. *)
Theorem C25_pem_roundtrip :
  forall (C : Crypto) (L : CryptoLaws) k pass g salt nonce g' junk,
    priv_valid (Some k) = true -> wf_priv k ->
    length salt = 32%nat -> length nonce = 24%nat -> delivers g (salt ++ nonce) g' ->
    exists p, export_private (Some k) pass g = Ret (Some p, g') /\ import_private (p ++ junk) pass = Ret (Some k).
Proof. exact @pem_private_roundtrip. Qed.
Print Assumptions C25_pem_roundtrip.

Theorem C25_pem_fails :
  forall (C : Crypto) (L : CryptoLaws) k pass g,
    (priv_valid k = false -> export_private k pass g = Ret (None, g)) /\
    (priv_valid k = true -> starved g 56 -> exists g', export_private k pass g = Ret (None, g')).
Proof. exact @pem_private_fails. Qed.
Print Assumptions C25_pem_fails.

Theorem C25_pem_accepts_exactly :
  forall (C : Crypto) (L : CryptoLaws) enc pass k,
    import_private enc pass = Ret (Some k) <->
    exists locked out, pem_decode enc = Some (bs "CRYPTUTIL PRIVATE KEY", locked) /\ genuine_file pass out locked /\
      unmarshal_private out = Ret (Some k).
Proof. exact @pem_private_exact. Qed.
Print Assumptions C25_pem_accepts_exactly.

Theorem C25_pem_rejects :
  forall (C : Crypto) (L : CryptoLaws) enc pass,
    (forall locked out, pem_decode enc = Some (bs "CRYPTUTIL PRIVATE KEY", locked) -> ~ genuine_file pass out locked) ->
    import_private enc pass = Ret None.
Proof. exact @pem_private_rejects. Qed.
Print Assumptions C25_pem_rejects.

Example C25_pem_nonvacuous :
  match export_private (C:=toy) (Some (keypair (C:=toy) (replicate 32 x05) (replicate 32 x06))) (bs "pw") xs_rng with
  | Ret (Some p, _) => match import_private (C:=toy) p (bs "pw"), import_private (C:=toy) p (bs "px"), import_private (C:=toy) (drop 6 p) (bs "pw") with
      | Ret (Some k), Ret None, Ret None => bool_decide (kD k = Some (replicate 32 x05)) = true | _, _, _ => False end
  | _ => False end.
Proof. vm_compute. reflexivity. Qed.

(** C54. The secrets command changes its file only as commanded. *)
Theorem C54_read_only :
  forall (C : Crypto) n m fl path c w w',
    fInit fl = false -> fChPass fl = false -> fStore fl = false -> fRemove fl = false -> fMulti fl = false -> fMerge fl = false ->
    fExport fl = false -> fImport fl = false -> ends (secrets_main n m fl path c w) w' -> wFs w' = wFs w.
Proof. exact @main_read_only. Qed.
Print Assumptions C54_read_only.

Theorem C54_failures :
  forall (C : Crypto) (L : CryptoLaws) n m fl path c w w',
    good_clock w ->
    (secrets_main n m fl path c w = Fail w' /\ disk_ok w) \/ secrets_main n m fl path c w = Crash w' -> wFs w' = wFs w.
Proof. exact @main_fail. Qed.
Print Assumptions C54_failures.

Theorem C54_other_files :
  forall (C : Crypto) n m fl path c w w',
    fExport fl = false -> ends (secrets_main n m fl path c w) w' -> only_changes path (wFs w) (wFs w').
Proof. exact @main_only. Qed.
Print Assumptions C54_other_files.

Theorem C54_show :
  forall (C : Crypto) (L : CryptoLaws) n m path c w w',
    plain_path path -> good_clock w -> run_cmd n m CShow path c w = Done tt w' ->
    exists pass s label rest r, head (wPw w) = Some (Some pass) /\ cArgs c = label :: rest /\ opens (wFs w) path m pass s /\ slot s label = Some (Some r) /\
      wOut w' = wOut w ++ (if cClip c then default [] (rSecret r) else bs "Secret: " ++ default [] (rSecret r) ++ [x0a]) /\ wFs w' = wFs w.
Proof. exact @show_exact. Qed.
Print Assumptions C54_show.

Theorem C54_store :
  forall (C : Crypto) (L : CryptoLaws) n m path c w w',
    plain_path path -> good_clock w -> run_cmd n m CStore path c w = Done tt w' ->
    exists pass s s' label rest r', head (wPw w) = Some (Some pass) /\ cArgs c = label :: rest /\
      opens (wFs w) path m pass s /\ saved (wFs w') path m s' /\ sPass s' = Some pass /\ sVersion s' = sVersion s /\
      same_but label s s' /\ slot s' label = Some (Some r') /\
      (cMeta c = false -> exists p, nth_error (wPw w) 1 = Some (Some p) /\ p <> [] /\
          rSecret r' = Some p /\ rTime r' = nth 0 (wClk w) 0 /\ sTime s' = nth 1 (wClk w) 0 /\
          ((slot s label = None /\ rLabel r' = label /\ rMeta r' = None) \/
           (cOver c = true /\ exists r, slot s label = Some (Some r) /\ rLabel r' = rLabel r /\ rMeta r' = rMeta r))) /\
      (cMeta c = true -> exists ls md i', dialogue (wIn w) ls i' /\ rMeta r' = Some md /\
          ((slot s label = None /\ rLabel r' = label /\ dictates ls ∅ md /\
            exists p, nth_error (wPw w) 1 = Some (Some p) /\ p <> [] /\ rSecret r' = Some p) \/
           (exists r, slot s label = Some (Some r) /\ rLabel r' = rLabel r /\ rSecret r' = rSecret r /\ dictates ls (default ∅ (rMeta r)) md))).
Proof. exact @store_exact. Qed.
Print Assumptions C54_store.

Theorem C54_store_refuses :
  forall (C : Crypto) n m path c w w1 s,
    load_store path m w = Done s w1 -> slot s (arg0 c) <> None -> cOver c = false -> cMeta c = false ->
    exists w', run_cmd n m CStore path c w = Fail w' /\ wFs w' = wFs w.
Proof. exact @store_refuses. Qed.
Print Assumptions C54_store_refuses.

Theorem C54_store_works :
  forall (C : Crypto) (L : CryptoLaws) n m path c w label rest pass p ps s salt nonce g1 g2,
    plain_path path -> good_clock w -> disk_ok w -> nth 1 (wClk w) 0 <> 0 -> m = 0 \/ m = 1 ->
    cArgs c = label :: rest -> cMeta c = false -> wPw w = Some pass :: Some p :: ps -> p <> [] -> opens (wFs w) path m pass s -> sound s ->
    (slot s label = None \/ (cOver c = true /\ exists r, slot s label = Some (Some r))) ->
    length salt = 32%nat -> length nonce = 24%nat -> delivers (wRng w) salt g1 -> delivers g1 nonce g2 ->
    exists w', run_cmd n m CStore path c w = Done tt w'.
Proof. exact @store_new_succeeds. Qed.
Print Assumptions C54_store_works.

Theorem C54_remove :
  forall (C : Crypto) (L : CryptoLaws) n m path c w w',
    plain_path path -> good_clock w -> cMeta c = false -> run_cmd n m CRemove path c w = Done tt w' ->
    exists pass s s' label rest, head (wPw w) = Some (Some pass) /\ cArgs c = label :: rest /\
      opens (wFs w) path m pass s /\ saved (wFs w') path m s' /\ sPass s' = Some pass /\ sVersion s' = sVersion s /\
      slot s label <> None /\ slot s' label = None /\ same_but label s s' /\ sTime s' = nth 0 (wClk w) 0.
Proof. exact @remove_exact. Qed.
Print Assumptions C54_remove.

Theorem C54_passwd :
  forall (C : Crypto) (L : CryptoLaws) n m path c w w',
    plain_path path -> good_clock w -> run_cmd n m CPasswd path c w = Done tt w' ->
    exists pass new s s', nth_error (wPw w) 0 = Some (Some pass) /\ nth_error (wPw w) 1 = Some (Some new) /\ new <> [] /\
      opens (wFs w) path m pass s /\ opens (wFs w') path m new s' /\
      sVersion s' = sVersion s /\ sRecs s' = sRecs s /\ sTime s' = nth 0 (wClk w) 0.
Proof. exact @passwd_exact. Qed.
Print Assumptions C54_passwd.

Theorem C54_merge :
  forall (C : Crypto) (L : CryptoLaws) n m path c w w',
    plain_path path -> good_clock w -> plain_path (arg0 c) -> run_cmd n m CMerge path c w = Done tt w' ->
    exists pass pass2 s o s', nth_error (wPw w) 0 = Some (Some pass) /\ nth_error (wPw w) 1 = Some (Some pass2) /\
      opens (wFs w) path m pass s /\ opens (wFs w) (arg0 c) m pass2 o /\ opens (wFs w') path m pass s' /\
      (no_nil s -> no_nil o -> forall k a b, at_label s k a -> at_label o k b -> forall r, at_label s' k r <-> newest a b r).
Proof. exact @merge_cmd_exact. Qed.
Print Assumptions C54_merge.

Theorem C54_init :
  forall (C : Crypto) (L : CryptoLaws) path m w w',
    plain_path path -> good_clock w -> init_store path m w = Done tt w' ->
    exists pass, head (wPw w) = Some (Some pass) /\ pass <> [] /\ only_changes path (wFs w) (wFs w') /\
      opens (wFs w') path m pass (SStore 1 (nth 0 (wClk w) 0) (Some ∅) (Some pass)).
Proof. exact @init_exact. Qed.
Print Assumptions C54_init.

Theorem C54_init_replaces :
  forall (C : Crypto) (L : CryptoLaws) path m w pass ps salt nonce g1 g2,
    plain_path path -> good_clock w -> disk_ok w -> nth 0 (wClk w) 0 <> 0 -> wPw w = Some pass :: ps -> pass <> [] -> m = 0 \/ m = 1 ->
    length salt = 32%nat -> length nonce = 24%nat -> delivers (wRng w) salt g1 -> delivers g1 nonce g2 ->
    exists w', init_store path m w = Done tt w'.
Proof. exact @init_replaces. Qed.
Print Assumptions C54_init_replaces.

Example C54_nonvacuous :
  xs_view (bs "pw") (xs_run CStore [bs "web"] false false [] [bs "pw"; bs "new"]) =
    Some [(bs "web", (7, Some (bs "new"), [])); (bs "mail", (3, Some (bs "s1"), [(bs "user", Some (bs "kyle"))]))] /\
  xs_view (bs "pw") (xs_run CStore [bs "mail"] true false [] [bs "pw"; bs "new"]) =
    Some [(bs "mail", (7, Some (bs "new"), [(bs "user", Some (bs "kyle"))]))] /\
  xs_view (bs "pw") (xs_run CStore [bs "mail"] false true [bs " host = h = x "; bs "nothing"; []] [bs "pw"]) =
    Some [(bs "mail", (7, Some (bs "s1"), [(bs "user", Some (bs "kyle")); (bs "host", Some (bs "h = x"))]))] /\
  xs_same (xs_run CStore [bs "mail"] false false [] [bs "pw"; bs "new"]) = true /\
  xs_same (xs_run CStore [bs "web"] false false [] [bs "px"; bs "new"]) = true /\
  xs_same (xs_run CStore [bs "web"] false false [] [bs "pw"; []]) = true /\
  xs_view (bs "pw") (xs_run CRemove [bs "mail"] false false [] [bs "pw"]) = Some [] /\
  xs_view (bs "p2") (xs_run CPasswd [] false false [] [bs "pw"; bs "p2"]) = Some [(bs "mail", (3, Some (bs "s1"), [(bs "user", Some (bs "kyle"))]))] /\
  xs_view (bs "pw") (xs_run CPasswd [] false false [] [bs "pw"; bs "p2"]) = None /\
  xs_view (bs "pw") (xs_run CMerge [bs "g"] false false [] [bs "pw"; bs "pw2"]) = Some [(bs "web", (1, Some (bs "s3"), [])); (bs "mail", (9, Some (bs "s2"), []))] /\
  (match xs_run CShow [bs "mail"] false false [] [bs "pw"] with Done _ w => bool_decide (wOut w = bs "s1") | _ => false end) = true /\
  xs_view (bs "n") (init_store (C:=toy) xs_path 1 (xs_world [] [bs "n"])) = Some [].
Proof. vm_compute. split_and!; reflexivity. Qed.
(** The assumptions of C54_store_works can be met. *)
Example C54_works_nonvacuous :
  plain_path xs_path /\ good_clock (xs_world [] []) /\ disk_ok (xs_world [] []) /\ nth 1 (wClk (xs_world [] [])) 0 <> 0 /\
  opens (C:=toy) (wFs (xs_world [] [])) xs_path 1 (bs "pw") xs_store /\ sound xs_store.
Proof.
  assert (sound xs_store) as V by (split_and!; [reflexivity|discriminate..]).
  refine (conj (conj _ _) (conj _ (conj _ (conj _ (conj _ V))))); [discriminate|discriminate|repeat constructor; cbn; lia|constructor|discriminate|].
  exists (xs_file xs_store). split.
  - vm_compute. reflexivity.
  - assert (match marshal_store (C:=toy) xs_store 1 xs_rng with Ret (Some _, _, _) => true | _ => false end = true) as Y by (vm_compute; reflexivity).
    destruct (marshal_store (C:=toy) xs_store 1 xs_rng) as [[[[d|] s'] g']|] eqn:E; [|discriminate Y..]. clear Y.
    destruct (marshal_roundtrip (C:=toy) (L:=toy_laws) xs_store 1 _ _ _ _ ltac:(
      refine (conj _ (conj _ _)); [unfold int64; cbn; lia|unfold int64; cbn; lia|];
      intros m k r [= <-] H; apply lookup_singleton_Some in H as [_ [= <-]]; unfold go_rec, int64; cbn; lia) E) as (s2 & U & _ & T).
    unfold xs_file. rewrite E. cbn [default sPass xs_store] in U. unfold default, id in U. rewrite U. do 2 f_equal. apply T.
    intros m k v [= <-] H. apply lookup_singleton_Some in H as [<- [= <-]]. split; [apply utf8_is_text, utf8_ascii; repeat constructor; vm_compute; (reflexivity || discriminate)|].
    intros r [= <-]. split; [apply utf8_is_text, utf8_ascii; repeat constructor; vm_compute; (reflexivity || discriminate)|]. intros md k' v' [= <-] H. apply lookup_singleton_Some in H as [<- _]. apply utf8_is_text, utf8_ascii; repeat constructor; vm_compute; (reflexivity || discriminate).
Qed.

(** C55. The dialogues of the secrets command. *)
Theorem C55_multi :
  forall (C : Crypto) (L : CryptoLaws) n m path c w w',
    plain_path path -> good_clock w -> run_cmd n m CMulti path c w = Done tt w' ->
    exists pass s mm names i' mm' pw' ts', wPw w = Some pass :: tail (wPw w) /\ opens (wFs w) path m pass s /\ sRecs s = Some mm /\
      dialogue (wIn w) names i' /\ entering (cOver c) mm names (tail (wPw w)) (wClk w) mm' pw' ts' /\
      saved (wFs w') path m (SStore (sVersion s) (nth 0 ts' 0) (Some mm') (Some pass)).
Proof. exact @multi_exact. Qed.
Print Assumptions C55_multi.

Theorem C55_multi_does :
  forall ow m names pw ts m' pw' ts',
    entering ow m names pw ts m' pw' ts' ->
    forall n s c w i', dialogue (wIn w) names i' -> cOver c = ow -> sRecs s = Some m -> wPw w = pw -> wClk w = ts -> (length names < n)%nat ->
    exists w', multi n s c w = Done (SStore (sVersion s) (sTime s) (Some m') (sPass s)) w' /\ wIn w' = i' /\ wPw w' = pw' /\ wClk w' = ts' /\
      wRng w' = wRng w /\ wFate w' = wFate w /\ wFs w' = wFs w.
Proof. exact @multi_does. Qed.
Print Assumptions C55_multi_does.

Theorem C55_multi_cut :
  forall (C : Crypto) (L : CryptoLaws) n m path c w names i1 i2,
    plain_path path -> good_clock w ->
    Forall (fun l => l <> []) names -> hears (wIn w) names i1 -> read_line i1 = (None, i2) ->
    (forall w', run_cmd n m CMulti path c w <> Done tt w') /\
    (disk_ok w -> forall w', ends (run_cmd n m CMulti path c w) w' -> wFs w' = wFs w).
Proof. exact @multi_cut. Qed.
Print Assumptions C55_multi_cut.

Theorem C55_meta :
  forall n,
    forall md w md' w', meta_loop n md w = Done md' w' ->
    exists ls, dialogue (wIn w) ls (wIn w') /\ dictates ls md md' /\ wPw w' = wPw w /\ wClk w' = wClk w /\ wRng w' = wRng w.
Proof. exact @meta_loop_done. Qed.
Print Assumptions C55_meta.

Theorem C55_meta_does :
  forall ls,
    forall n md md' w i', dialogue (wIn w) ls i' -> dictates ls md md' -> (length ls < n)%nat ->
    exists w', meta_loop n md w = Done md' w' /\ wIn w' = i' /\ wPw w' = wPw w /\ wClk w' = wClk w /\ wRng w' = wRng w /\ wFate w' = wFate w /\ wFs w' = wFs w.
Proof. exact @meta_loop_does. Qed.
Print Assumptions C55_meta_does.

Theorem C55_remove_meta :
  forall (C : Crypto) (L : CryptoLaws) n m path c w w',
    plain_path path -> good_clock w -> cMeta c = true -> run_cmd n m CRemove path c w = Done tt w' ->
    exists pass s s' label rest r keys i', head (wPw w) = Some (Some pass) /\ cArgs c = label :: rest /\
      opens (wFs w) path m pass s /\ saved (wFs w') path m s' /\ sPass s' = Some pass /\ sVersion s' = sVersion s /\ same_but label s s' /\
      slot s label = Some (Some r) /\ Forall (fun k => k <> []) keys /\ rehears (wIn w) (keys ++ [[]]) i' /\
      slot s' label = Some (Some (SRec (rLabel r) (nth 0 (wClk w) 0) (rSecret r) (option_map (filter (fun kv => fst kv ∉ keys)) (rMeta r)))).
Proof. exact @remove_meta_exact. Qed.
Print Assumptions C55_remove_meta.

Theorem C55_remove_meta_spins :
  forall (C : Crypto) n m path c w w1 s r ls,
    load_store path m w = Done s w1 -> cArgs c <> [] -> cMeta c = true -> slot s (arg0 c) = Some (Some r) ->
    Forall (fun k => k <> []) ls -> hears (wIn w1) ls [] -> run_cmd n m CRemove path c w = Spin.
Proof. exact @remove_meta_spins. Qed.
Print Assumptions C55_remove_meta_spins.

Theorem C55_multi_ends :
  forall n,
    forall s c w, (pending (wIn w) < n)%nat -> multi n s c w <> Spin.
Proof. exact @multi_ends. Qed.
Print Assumptions C55_multi_ends.

Theorem C55_meta_ends :
  forall n,
    forall md w, (pending (wIn w) < n)%nat -> meta_loop n md w <> Spin.
Proof. exact @meta_loop_ends. Qed.
Print Assumptions C55_meta_ends.

Example C55_nonvacuous :
  xs_view (bs "pw") (xs_run CMulti [] false false [bs "mail"; bs "a"; bs "b"; bs "c"; []] [bs "pw"; bs "1"; []; bs "3"]) =
    Some [(bs "a", (7, Some (bs "1"), [])); (bs "c", (8, Some (bs "3"), [])); (bs "mail", (3, Some (bs "s1"), [(bs "user", Some (bs "kyle"))]))] /\
  xs_view (bs "pw") (xs_run CMulti [] true false [bs "mail"; []] [bs "pw"; bs "1"]) =
    Some [(bs "mail", (7, Some (bs "1"), [(bs "user", Some (bs "kyle"))]))] /\
  xs_same (xs_run CMulti [] false false [bs "a"] [bs "pw"; bs "1"]) = true /\
  xs_view (bs "pw") (xs_run CRemove [bs "mail"] false true [bs "user"; []] [bs "pw"]) = Some [(bs "mail", (7, Some (bs "s1"), []))] /\
  xs_run CRemove [bs "mail"] false true [bs "user"] [bs "pw"] = Spin.
Proof. vm_compute. split_and!; reflexivity. Qed.
Example C55_cut_nonvacuous : exists i1 i2, hears (wIn (xs_world [bs "a"] [])) [bs "a"] i1 /\ read_line i1 = (None, i2).
Proof. exists [], []. split; [econstructor; [vm_compute; reflexivity|constructor]|vm_compute; reflexivity]. Qed.

(** C69. Export and import. *)
Theorem C69_roundtrip :
  forall path out path2 w d,
    plain_path path -> plain_path out -> plain_path path2 -> disk_ok w -> wFs w !! path = Some d ->
    exists w1 w2, export_store path out w = Done tt w1 /\ import_store path2 out w1 = Done tt w2 /\
      wFs w2 !! path2 = Some d /\ (forall q, q <> path2 -> q <> out -> wFs w2 !! q = wFs w !! q).
Proof. exact @export_import. Qed.
Print Assumptions C69_roundtrip.

Theorem C69_refuses :
  forall path inp w d,
    plain_path inp -> wFs w !! inp = Some d ->
    (pem_decode d = None \/ exists ty b, pem_decode d = Some (ty, b) /\ ty <> bs "SECRET STORE") ->
    import_store path inp w = Fail w.
Proof. exact @import_refuses. Qed.
Print Assumptions C69_refuses.

Theorem C69_export_only :
  forall path out w w',
    ends (export_store path out w) w' -> only_changes out (wFs w) (wFs w').
Proof. exact @export_only. Qed.
Print Assumptions C69_export_only.

Theorem C69_not_pem :
  forall s,
    (forall u v, s <> u ++ bs "-----BEGIN " ++ v) -> pem_decode s = None.
Proof. exact @pem_no_marker. Qed.
Print Assumptions C69_not_pem.

Example C69_nonvacuous :
  match export_store xs_path (bs "out") (xs_world [] []) with
  | Done _ w =>
      match import_store (bs "h") (bs "out") w, import_store (bs "h") (bs "g") w with
      | Done _ w2, Fail w3 => bool_decide (wFs w2 !! bs "h" = Some (xs_file xs_store)) && bool_decide (wFs w3 !! bs "h" = None) = true
      | _, _ => False end
  | _ => False end.
Proof. vm_compute. reflexivity. Qed.

(** C70. Reading lines. *)
Theorem C70_line :
  forall i r i',
    read_line i = (r, i') ->
    match r with
    | Some t => exists u0 p line lost, feeds i (u0 ++ p) i' /\ u0 ++ p = line ++ [x0a] ++ lost /\ x0a ∉ line /\
        trimmed (line ++ [x0a]) t /\ last_read i u0 p i' /\ (length lost < bufSize)%nat
    | None => exists u i0, feeds i u i0 /\ at_end i0 i' /\ x0a ∉ u
    end.
Proof. exact @read_line_spec. Qed.
Print Assumptions C70_line.

Theorem C70_total :
  forall i,
    (exists t i', read_line i = (Some t, i')) <-> exists u i', feeds i u i' /\ x0a ∈ u.
Proof. exact @read_line_some_iff. Qed.
Print Assumptions C70_total.

Theorem C70_trim_unique :
  forall s t t',
    trimmed s t -> trimmed s t' -> t = t'.
Proof. exact @trimmed_unique. Qed.
Print Assumptions C70_trim_unique.

Theorem C70_end :
  forall i i',
    at_end i i' -> read_line i = (None, i').
Proof. exact @read_line_end_again. Qed.
Print Assumptions C70_end.

Theorem C70_terminal :
  forall ls i,
    Forall short_line ls -> exists ts, Forall2 trimmed ls ts /\ hears (map typed ls ++ i) ts i.
Proof. exact @terminal_lines. Qed.
Print Assumptions C70_terminal.

Theorem C70_piped_loses :
  forall l rest i,
    x0a ∉ l -> (length (l ++ [x0a] ++ rest) <= 4096)%nat ->
    exists t, trimmed l t /\ read_line ((l ++ [x0a] ++ rest) :: i) = (Some t, i).
Proof. exact @piped_lines. Qed.
Print Assumptions C70_piped_loses.

Theorem C70_piped_script :
  forall l ls,
    Forall short_line (l :: ls) -> (length (concat (map typed (l :: ls))) <= 4096)%nat ->
    exists t, trimmed l t /\ hears [concat (map typed (l :: ls))] [t] [] /\
      forall ts i', hears [concat (map typed (l :: ls))] ts i' -> ts = [] \/ ts = [t].
Proof. exact @piped_script. Qed.
Print Assumptions C70_piped_script.

Example C70_nonvacuous :
  read_line [bs " one"; bs " line " ++ [x0a] ++ bs "two"; bs "three" ++ [x0a]] = (Some (bs "one line"), [bs "three" ++ [x0a]]) /\
  read_line [bs "no newline"; []; bs "x"] = (None, [bs "x"]).
Proof. vm_compute. split; reflexivity. Qed.


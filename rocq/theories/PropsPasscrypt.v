(** Properties C63 to C65: the passcrypt command. *)
From Verif Require Export PasscryptClaims Toy.
Local Open Scope Z_scope.

(** For the examples: no compression, and a small file tree. *)
Definition xp_gz : gzip := GZ (fun d => d) (fun z => Some (z, true)).
Definition xp_tree : tree := {[ [] := Dir 493; [bs "h"] := Dir 493; [bs "h"; bs "a"] := Dir 448; [bs "h"; bs "a"; bs "f"] := Reg 384 (bs "data"); [bs "h"; bs "l"] := Other ]}.
Definition xp_rng : rng := replicate 56 (Some x2a).
Definition xp_w (f : tree) (fates : list (option nat)) : pworld := PW f [bs "h"] 18 [Some (bs "p")] xp_rng fates [].
Definition xp_view (r : bool * pworld) : option (list (list bytes * node)) := if fst r then Some (map_to_list (qFs (snd r))) else None.
Definition xp_at (r : bool * pworld) (l : list bytes) : option node := if fst r then qFs (snd r) !! l else None.
Definition xp_packed (armour : bool) : bytes := match xp_at (pc_pack (C:=toy) xp_gz [bs "a"; bs "l"] armour (bs "o") (xp_w xp_tree [])) [bs "h"; bs "o"] with Some (Reg _ d) => d | _ => [] end.
(** An archive of these entries. *)
Definition xp_arch (es : list file) : bytes :=
  match der_files es with
  | Some s => replicate 32 x2a ++ replicate 24 x2a ++ sbox_seal (scrypt_raw (bs "p") (replicate 32 x2a) (2 ^ 20) 8 2) (replicate 24 x2a) s
  | None => []
  end.
Definition xp_put (d : bytes) (f : tree) : tree := <[ [bs "h"; bs "o"] := Reg 420 d ]> f.
(** A check of [sane]. *)
Definition sane_b (f : tree) : bool :=
  forallb (fun kn => (match rev (fst kn) with [] => true | c :: r => bool_decide (c <> [] /\ c <> bs "." /\ c <> bs "..") && forallb (fun b => negb (bool_decide (b = x2f))) c && match f !! rev r with Some (Dir _) => true | _ => false end end)
    && match snd kn with Dir m | Reg m _ => bool_decide (0 <= m < 512) | Other => true end) (map_to_list f)
  && match f !! [] with Some (Dir _) => true | _ => false end.
Lemma sane_check f : sane_b f = true -> sane f.
Proof.
  unfold sane_b. rewrite andb_true_iff, forallb_forall. intros [H R]. assert (forall l n, f !! l = Some n -> In (l, n) (map_to_list f)) as M by (intros l n E; apply elem_of_list_In, elem_of_map_to_list, E).
  split. { unfold a_dir. destruct (f !! []) as [[m|m d|]|]; try discriminate. eauto. } split; [|split].
  - intros l c n E. apply M, H in E. cbn [fst snd] in E. rewrite rev_unit in E. apply andb_true_iff in E as [E _]. rewrite !andb_true_iff, rev_involutive in E. destruct E as [[E1 E2] E3]. apply bool_decide_eq_true in E1 as (A & B & D). split.
    + split; [exact A|]. split; [exact B|]. split; [exact D|]. intros X. rewrite forallb_forall in E2. apply elem_of_list_In, E2 in X. rewrite bool_decide_eq_true_2 in X by reflexivity. discriminate.
    + unfold a_dir. destruct (f !! l) as [[m|m d|]|]; try discriminate. eauto.
  - intros l m E. apply M, H in E. apply andb_true_iff in E as [_ E]. apply bool_decide_eq_true in E. exact E.
  - intros l m d E. apply M, H in E. apply andb_true_iff in E as [_ E]. apply bool_decide_eq_true in E. exact E.
Qed.
Lemma xp_not (x : bytes) (l : list bytes) : bool_decide (x ∈ l) = false -> x ∉ l.
Proof. intros H. apply bool_decide_eq_false in H. exact H. Qed.
Lemma xp_ready f fates : sane_b f && match f !! [bs "h"] with Some (Dir _) => true | _ => false end = true -> ready (xp_w f fates).
Proof. rewrite andb_true_iff. intros [H E]. split; [apply sane_check, H|]. change (exists m, f !! [bs "h"] = Some (Dir m)). destruct (f !! [bs "h"]) as [[m|m d|]|]; try discriminate. eauto. Qed.
(** C63. Packing, and reading what was packed. *)
Theorem C63_round_trip :
  forall (G : gzip) (C : Crypto) (L : CryptoLaws) paths armour out w w1 pass pws m d arch top w2 m2 pws2,
    (forall z, gzRead G (gzZip G z) = Some (z, true)) ->
    ready w -> qFate w = [] -> paths <> [] -> qPw w = Some pass :: pws -> pc_pack G paths armour out w = (true, w1) ->
    qFs w1 !! loc w out = Some (Reg m d) -> zlen d < 2 ^ 31 -> (armour = false -> forall u v, d <> u ++ bs "-----BEGIN " ++ v) ->
    Forall (fun p => bs ".." ∉ root_names p) paths -> (forall i j p q, paths !! i = Some p -> paths !! j = Some q -> root_names p `prefix_of` root_names q -> i = j) ->
    ready w2 -> qFate w2 = [] -> qPw w2 = Some pass :: pws2 -> reaches w2 arch -> qFs w2 !! loc w2 arch = Some (Reg m2 d) ->
    top <> [] -> (forall k, k ∈ way (base w2 top) (comps top) -> can_be_dir (qFs w2) k) ->
    (forall u, u <> [] -> qFs w2 !! (loc w2 top ++ u) = None /\ loc w2 top ++ u ∉ way (base w2 top) (comps top)) ->
    exists w3, pc_unpack G arch top w2 = (true, w3) /\
      (forall i p s, paths !! i = Some p -> root_names p ++ s <> [] -> qFs w3 !! (loc w2 top ++ root_names p ++ s) = copy_of (qUmask w2) (qFs w !! (loc w p ++ s))) /\
      (forall l, l ∉ way (base w2 top) (comps top) -> (forall i p, paths !! i = Some p -> ~ loc w2 top ++ root_names p `prefix_of` l /\ ~ l `prefix_of` loc w2 top ++ root_names p) -> qFs w3 !! l = qFs w2 !! l).
Proof. exact @round_trip. Qed.
Print Assumptions C63_round_trip.

Theorem C63_pack :
  forall (G : gzip) (C : Crypto) (L : CryptoLaws) paths armour out w w',
    ready w -> paths <> [] -> pc_pack G paths armour out w = (true, w') ->
    can_write w out /\ Forall (reaches w) paths /\
    exists pass pws salt nonce g cuts es s c m,
      qPw w = Some pass :: pws /\ qPw w' = pws /\ length salt = 32%nat /\ length nonce = 24%nat /\ delivers (qRng w) (salt ++ nonce) g /\ qRng w' = g /\
      listings G w cuts paths es /\ (qFate w = [] -> Forall (eq []) cuts) /\ Forall go_file es /\ (zlen s < 2 ^ 64 -> files_der es s) /\ (forall x, x ∈ es -> utf8_text (fPath x)) /\
      file_format (2 ^ 20) 8 2 pass salt nonce s c /\ qFs w' !! loc w out = Some (Reg m (content armour c)) /\
      (m = lowered (qUmask w) 420 \/ exists d0, qFs w !! loc w out = Some (Reg m d0)).
Proof. exact @pc_pack_success. Qed.
Print Assumptions C63_pack.

Theorem C63_pack_succeeds :
  forall (G : gzip) (C : Crypto) (L : CryptoLaws) paths armour out w pass pws salt nonce g,
    ready w -> paths <> [] -> qFate w = [] -> qPw w = Some pass :: pws -> length salt = 32%nat -> length nonce = 24%nat -> delivers (qRng w) (salt ++ nonce) g ->
    Forall (reaches w) paths -> can_write w out -> (exists w', pc_pack G paths armour out w = (true, w')) <-> (forall cuts es, listings G w cuts paths es -> Forall (eq []) cuts -> forall x, x ∈ es -> utf8_text (fPath x)).
Proof. exact @pc_pack_live. Qed.
Print Assumptions C63_pack_succeeds.

Theorem C63_pack_only_output :
  forall (G : gzip) (C : Crypto) (L : CryptoLaws) paths armour out w b w',
    ready w -> pc_pack G paths armour out w = (b, w') ->
    kept w w' /\ ready w' /\ qOut w' = qOut w /\ (forall l, l <> loc w out -> qFs w' !! l = qFs w !! l) /\
    (qFs w' = qFs w \/ can_write w out /\ exists m d, qFs w' !! loc w out = Some (Reg m d)).
Proof. exact @pc_pack_frame. Qed.
Print Assumptions C63_pack_only_output.

Theorem C63_pack_nothing :
  forall (G : gzip) (C : Crypto) armour out w,
    pc_pack G [] armour out w = (true, w).
Proof. exact @pc_pack_nothing. Qed.
Print Assumptions C63_pack_nothing.

Theorem C63_read_back :
  forall es s junk,
    files_der es s -> Forall go_file es -> zlen s < 2 ^ 31 -> parse_files (s ++ junk) = Some es.
Proof. exact @archive_read_back. Qed.
Print Assumptions C63_read_back.

Theorem C63_too_large :
  forall es l s,
    Forall2 file_der es l -> element x30 (concat l) s -> 2 ^ 31 <= zlen (concat l) < 2 ^ 64 -> parse_files s = None.
Proof. exact @archive_too_large. Qed.
Print Assumptions C63_too_large.

Theorem C63_list :
  forall (C : Crypto) (L : CryptoLaws) arch w b w',
    ready w -> pc_list arch w = (b, w') ->
    qFs w' = qFs w /\ kept w w' /\
    ((b = false /\ qOut w' = qOut w) \/
     (b = true /\ exists es, holds_entries w arch es /\ qOut w' = qOut w ++ bs "Manifest for " ++ arch ++ [x0a; x0a] ++ concat (map line_of es))) /\
    (qFate w = [] -> b = true <-> exists es, holds_entries w arch es).
Proof. exact @list_exact. Qed.
Print Assumptions C63_list.

Theorem C63_complete_refuted :
  forall (G : gzip) (C : Crypto) (L : CryptoLaws) p armour out w j pass pws salt nonce g m,
    ready w -> reaches w p -> qFs w !! loc w p = Some (Dir m) -> qFate w = [None; Some j] -> can_write w out ->
    qPw w = Some pass :: pws -> length salt = 32%nat -> length nonce = 24%nat -> delivers (qRng w) (salt ++ nonce) g -> utf8_text (named p []) ->
    exists w' s c m', pc_pack G [p] armour out w = (true, w') /\ (zlen s < 2 ^ 64 -> files_der [File (named p []) (2 ^ 31 + m) []] s) /\ file_format (2 ^ 20) 8 2 pass salt nonce s c /\ qFs w' !! loc w out = Some (Reg m' (content armour c)).
Proof. exact @unreadable_dropped. Qed.
Print Assumptions C63_complete_refuted.

Example C63_nonvacuous :
  (* packed and armoured, and unpacked elsewhere *)
  xp_view (pc_unpack (C:=toy) xp_gz (bs "o") (bs "x/y") (xp_w (xp_put (xp_packed true) {[ [] := Dir 493; [bs "h"] := Dir 493 ]}) [])) =
    xp_view (true, xp_w (xp_put (xp_packed true) {[ [] := Dir 493; [bs "h"] := Dir 493; [bs "h"; bs "x"] := Dir 493; [bs "h"; bs "x"; bs "y"] := Dir 493; [bs "h"; bs "x"; bs "y"; bs "a"] := Dir 448; [bs "h"; bs "x"; bs "y"; bs "a"; bs "f"] := Reg 384 (bs "data") ]}) []) /\
  xp_packed false = xp_arch [File (bs "a") (2 ^ 31 + 448) []; File (bs "a/f") 384 (bs "data")] /\
  (* the names in "a" cannot be read *)
  xp_at (pc_pack (C:=toy) xp_gz [bs "a"] false (bs "o") (xp_w xp_tree [None; Some O])) [bs "h"; bs "o"] = Some (Reg 420 (xp_arch [File (bs "a") (2 ^ 31 + 448) []])) /\
  (* the list *)
  (let r := pc_list (C:=toy) (bs "o") (xp_w (xp_put (xp_packed false) xp_tree) []) in fst r = true /\ qOut (snd r) = bs "Manifest for o" ++ [x0a; x0a] ++ x09 :: bs "a/" ++ x0a :: x09 :: bs "a/f" ++ [x0a]) /\
  ready (xp_w xp_tree []).
Proof. split; [vm_compute; reflexivity|]. split; [vm_compute; reflexivity|]. split; [vm_compute; reflexivity|]. split; [vm_compute; split; reflexivity|]. apply xp_ready. vm_compute. reflexivity. Qed.
(** The hypotheses of the round trip hold of the example. *)
Example C63_round_trip_holds :
  let d := xp_packed true in let w2 := xp_w (xp_put d {[ [] := Dir 493; [bs "h"] := Dir 493 ]}) [] in
  exists w3, pc_unpack (C:=toy) xp_gz (bs "o") (bs "x") w2 = (true, w3) /\ qFs w3 !! [bs "h"; bs "x"; bs "a"; bs "f"] = Some (Reg 384 (bs "data")).
Proof.
  cbv zeta. set (d := xp_packed true). set (w2 := xp_w _ _). set (w := xp_w xp_tree []).
  destruct (C63_round_trip xp_gz toy toy_laws [bs "a"; bs "l"] true (bs "o") w (snd (pc_pack (C:=toy) xp_gz [bs "a"; bs "l"] true (bs "o") w)) (bs "p") [] 420 d (bs "o") (bs "x") w2 420 []) as (w3 & H & Cp & _).
  - reflexivity.
  - apply xp_ready. vm_compute. reflexivity.
  - reflexivity.
  - discriminate.
  - reflexivity.
  - assert (fst (pc_pack (C:=toy) xp_gz [bs "a"; bs "l"] true (bs "o") w) = true) as E by (vm_compute; reflexivity). rewrite <- E. apply surjective_pairing.
  - vm_compute. reflexivity.
  - vm_compute. reflexivity.
  - discriminate.
  - apply Forall_cons_2; [|apply Forall_cons_2; [|apply Forall_nil_2]]; apply xp_not; vm_compute; reflexivity.
  - intros [|[|i]] [|[|j]] p q; cbn; try discriminate; try reflexivity; intros [= <-] [= <-] [k X]; discriminate X.
  - apply xp_ready. vm_compute. reflexivity.
  - reflexivity.
  - reflexivity.
  - split; [discriminate|]. split; [|vm_compute; discriminate]. intros k Hk. change (k ∈ [[bs "h"]]) in Hk. apply elem_of_list_singleton in Hk as ->. eexists. vm_compute. reflexivity.
  - vm_compute. reflexivity.
  - discriminate.
  - intros k Hk. change (k ∈ [[bs "h"]; [bs "h"; bs "x"]]) in Hk. apply elem_of_cons in Hk as [->|Hk]; [right; eexists; vm_compute; reflexivity|]. apply elem_of_list_singleton in Hk as ->. left. vm_compute. reflexivity.
  - intros u Nu. change (loc w2 (bs "x")) with [bs "h"; bs "x"]. split.
    + destruct (qFs w2 !! ([bs "h"; bs "x"] ++ u)) as [n|] eqn:E; [|reflexivity]. exfalso. unfold w2, xp_w, xp_put in E. cbn [qFs] in E. apply lookup_insert_Some in E as [[E _]|[_ E]]; [discriminate E|]. apply lookup_insert_Some in E as [[E _]|[_ E]]; [discriminate E|]. apply lookup_singleton_Some in E as [E _]. discriminate E.
    + intros X. change ([bs "h"; bs "x"] ++ u ∈ [[bs "h"]; [bs "h"; bs "x"]]) in X. apply elem_of_cons in X as [X|X]; [discriminate X|]. apply elem_of_list_singleton in X. injection X as ->. congruence.
  - exists w3. split; [exact H|]. apply (Cp O (bs "a") [bs "f"] eq_refl). discriminate.
Qed.

(** C64. Where unpacking writes, and what. *)
Theorem C64_touches :
  forall (G : gzip) (C : Crypto) (L : CryptoLaws) arch top w b w',
    ready w -> top <> [] -> pc_unpack G arch top w = (b, w') ->
    kept w w' /\ ready w' /\
    ((b = false /\ qFs w' = qFs w /\ qOut w' = qOut w) \/
     exists es es0, holds_entries w arch es /\ es0 `prefix_of` es /\ (b = true -> es0 = es) /\ qOut w' = qOut w ++ concat (map dir_line es0) /\ touched (loc w top) (way (base w top) (comps top)) es (qFs w) (qFs w')).
Proof. exact @unpack_touches. Qed.
Print Assumptions C64_touches.

Theorem C64_inside :
  forall (G : gzip) (C : Crypto) (L : CryptoLaws) arch top w b w' es,
    ready w -> top <> [] -> holds_entries w arch es -> Forall no_up es -> pc_unpack G arch top w = (b, w') ->
    forall l, qFs w' !! l = qFs w !! l \/ l ∈ way (base w top) (comps top) \/ loc w top `prefix_of` l.
Proof. exact @unpack_inside. Qed.
Print Assumptions C64_inside.

Theorem C64_inside_refuted :
  forall (G : gzip) (C : Crypto) (L : CryptoLaws) arch top w n c mode z d,
    ready w -> top <> [] -> qFate w = [] -> (forall k, k ∈ way (base w top) (comps top) -> can_be_dir (qFs w) k) ->
    fname c -> (length (loc w top) <= n)%nat -> Z.testbit mode 31 = false -> gzRead G z = Some (d, true) -> qFs w !! [c] = None -> [c] ∉ way (base w top) (comps top) ->
    holds_entries w arch [File (climbs n c) mode z] -> exists w', pc_unpack G arch top w = (true, w') /\ qFs w' !! [c] = Some (Reg (lowered (qUmask w) mode) d).
Proof. exact @unpack_escapes. Qed.
Print Assumptions C64_inside_refuted.

Theorem C64_exact :
  forall (G : gzip) (C : Crypto) (L : CryptoLaws) arch top w b w' es,
    ready w -> top <> [] -> qFate w = [] -> (forall k, k ∈ way (base w top) (comps top) -> can_be_dir (qFs w) k) ->
    holds_entries w arch es -> Forall tidy es -> pc_unpack G arch top w = (b, w') ->
    (b = true <-> fits G (loc w top) (way (base w top) (comps top)) es (qFs w)) /\
    (b = true -> qOut w' = qOut w ++ concat (map dir_line es) /\ unpacked G (qUmask w) (loc w top) (way (base w top) (comps top)) es (qFs w) (qFs w')).
Proof. exact @unpack_exact. Qed.
Print Assumptions C64_exact.

Theorem C64_tail_left :
  forall (G : gzip) (C : Crypto) (L : CryptoLaws) arch top w w' x m old,
    ready w -> top <> [] -> qFate w = [] -> (forall k, k ∈ way (base w top) (comps top) -> can_be_dir (qFs w) k) ->
    holds_entries w arch [x] -> tidy x -> folder x = false -> qFs w !! dest (loc w top) x = Some (Reg m old) -> pc_unpack G arch top w = (true, w') ->
    qFs w' !! dest (loc w top) x = Some (Reg m (contents G x ++ drop (length (contents G x)) old)).
Proof. exact @unpack_over. Qed.
Print Assumptions C64_tail_left.

Theorem C64_clean :
  forall p,
    clean p = as_path (is_rooted p) (norm (is_rooted p) (comps p)).
Proof. exact @clean_exact. Qed.
Print Assumptions C64_clean.

Theorem C64_clean_idempotent :
  forall p,
    clean (clean p) = clean p.
Proof. exact @clean_idem. Qed.
Print Assumptions C64_clean_idempotent.

Theorem C64_clean_leads :
  forall p at_,
    (is_rooted p = true -> at_ = []) -> go_to at_ (comps (clean p)) = go_to at_ (comps p).
Proof. exact @go_clean. Qed.
Print Assumptions C64_clean_leads.

Theorem C64_join_leads :
  forall a b at_,
    a <> [] -> (is_rooted a = true -> at_ = []) -> go_to at_ (comps (fjoin a b)) = go_to (go_to at_ (comps a)) (comps b).
Proof. exact @go_fjoin. Qed.
Print Assumptions C64_join_leads.

Example C64_nonvacuous :
  (* two levels up from the output directory *)
  xp_at (pc_unpack (C:=toy) xp_gz (bs "o") (bs "x") (xp_w (xp_put (xp_arch [File (bs "../../evil") 511 (bs "!")]) xp_tree) [])) [bs "evil"] = Some (Reg 493 (bs "!")) /\
  (* over a longer file *)
  xp_at (pc_unpack (C:=toy) xp_gz (bs "o") (bs ".") (xp_w (xp_put (xp_arch [File (bs "a/f") 511 (bs "!")]) xp_tree) [])) [bs "h"; bs "a"; bs "f"] = Some (Reg 384 (bs "!ata")) /\
  clean (bs "/../a//b/./c/..") = bs "/a/b" /\ clean (bs "../a/../..") = bs "../.." /\ fjoin (bs "x") (bs "/a") = bs "x/a" /\
  climbs 2 (bs "evil") = bs "../../evil" /\ no_up (File (bs "/a") 0 []).
Proof. do 6 (split; [vm_compute; reflexivity|]). unfold no_up. apply xp_not. vm_compute. reflexivity. Qed.

(** C65. Directory permissions. *)
Theorem C65_exact :
  forall mode,
    searchable mode (dir_perm mode) <-> Z.land mode 73 = 0.
Proof. exact @dir_perm_exact. Qed.
Print Assumptions C65_exact.

Example C65_nonvacuous : searchable 416 (dir_perm 416) /\ dir_perm 416 = 488 /\
  (* an executable: the directory made for it is the owner's no more *)
  ~ searchable 493 (dir_perm 493) /\ lowered 0 (dir_perm 493) = 54.
Proof. rewrite !C65_exact. repeat split; vm_compute; congruence. Qed.


(** The claims about passcrypt, in terms of whole commands. *)
From Verif Require Export PasscryptCopyFacts.
From Verif Require Import SecretFacts PemFacts Base64Facts.
Local Open Scope Z_scope.

Section WithCrypto.
Context (G : gzip) `{C : Crypto} {L : CryptoLaws}.

(** *** Sizes *)
Lemma pem_lines_longer f : forall s, (length s <= f)%nat -> (length s <= length (pem_lines f s))%nat.
Proof.
  induction f as [|f IH]; intros s Ls; [lia|]. cbn [pem_lines]. case_decide as E; [subst; cbn; lia|]. rewrite app_length. cbn [length]. assert (length (drop 64 s) <= f)%nat as X by (rewrite drop_length; destruct s; [congruence|cbn in *; lia]). specialize (IH _ X). rewrite drop_length in IH. rewrite take_length. lia.
Qed.
Lemma content_longer armour c : (length c <= length (content armour c))%nat.
Proof.
  destruct armour; cbn [content]; [|lia]. unfold pem_encode. cbv zeta. rewrite !app_length. pose proof (pem_lines_longer (length (b64_encode c)) (b64_encode c) ltac:(lia)). pose proof (b64_length c) as B. unfold zlen in B. lia.
Qed.
Lemma format_longer N r p pass salt nonce m c : file_format N r p pass salt nonce m c -> (length m <= length c)%nat.
Proof. intros (LS & e & [LN ->] & ->). rewrite !app_length, sbox_length. lia. Qed.

(** *** The archive format *)
Lemma archive_read_back es s junk : files_der es s -> Forall go_file es -> zlen s < 2 ^ 31 -> parse_files (s ++ junk) = Some es.
Proof. apply parse_files_back. Qed.
Lemma archive_too_large es l s : Forall2 file_der es l -> element x30 (concat l) s -> 2 ^ 31 <= zlen (concat l) < 2 ^ 64 -> parse_files s = None.
Proof. apply parse_files_large. Qed.

(** *** Opening *)
Lemma opened_iff arch w es : ready w ->
  (forall s w', open_archive arch w = (Some s, w') -> parse_files s = Some es -> holds_entries w arch es) /\
  (qFate w = [] -> holds_entries w arch es -> exists s w', open_archive arch w = (Some s, w') /\ parse_files s = Some es).
Proof.
  intros Rw. split.
  - intros s w' H P. destruct (proj1 (open_archive_exact arch w s Rw) w' H) as (Re & m & d & c & pass & pws & A & B & D & _ & E). split; [exact Re|]. exists m, d, c, pass, pws, s. auto.
  - intros HF (Re & m & d & c & pass & pws & s & A & B & D & E & P). destruct (proj2 (open_archive_exact arch w s Rw) m d c pass pws HF Re A B D E) as (w' & X & _). eauto.
Qed.
Lemma list_exact arch w b w' : ready w -> pc_list arch w = (b, w') ->
  qFs w' = qFs w /\ kept w w' /\
  ((b = false /\ qOut w' = qOut w) \/
   (b = true /\ exists es, holds_entries w arch es /\ qOut w' = qOut w ++ bs "Manifest for " ++ arch ++ [x0a; x0a] ++ concat (map line_of es))) /\
  (qFate w = [] -> b = true <-> exists es, holds_entries w arch es).
Proof.
  intros Rw H. destruct (pc_list_exact arch w b w' H) as (A & K & R & X). split; [apply A|]. split; [exact K|]. split.
  - destruct X as [X|(Eb & s & es & w1 & EO & EP & O)]; [left; exact X|right]. split; [exact Eb|]. exists es. split; [|exact O]. eapply (proj1 (opened_iff arch w es Rw)); eassumption.
  - intros HF. split.
    + intros ->. destruct X as [[X _]|(_ & s & es & w1 & EO & EP & _)]; [discriminate|]. exists es. eapply (proj1 (opened_iff arch w es Rw)); eassumption.
    + intros (es & He). destruct (proj2 (opened_iff arch w es Rw) HF He) as (s & w1 & EO & EP). destruct (pc_list_live arch w s es w1 EO EP) as (w2 & E2). congruence.
Qed.

(** *** Unpacking *)
Lemma unpack_touches arch top w b w' : ready w -> top <> [] -> pc_unpack G arch top w = (b, w') ->
  kept w w' /\ ready w' /\
  ((b = false /\ qFs w' = qFs w /\ qOut w' = qOut w) \/
   exists es es0, holds_entries w arch es /\ es0 `prefix_of` es /\ (b = true -> es0 = es) /\ qOut w' = qOut w ++ concat (map dir_line es0) /\ touched (loc w top) (way (base w top) (comps top)) es (qFs w) (qFs w')).
Proof.
  intros Rw Nt H. destruct (pc_unpack_spec G arch top w b w' Rw Nt H) as [(-> & A & K & O & _)|(s & es & es0 & w1 & EO & EP & P0 & B0 & K & R & O & T & _)].
  - split; [exact K|]. split; [eapply alike_ready; eassumption|]. left. split; [reflexivity|]. split; [apply A|exact O].
  - split; [exact K|]. split; [exact R|]. right. exists es, es0. split; [eapply (proj1 (opened_iff arch w es Rw)); eassumption|]. split; [exact P0|]. split; [exact B0|]. split; [rewrite O, flat_map_concat_map; reflexivity|exact T].
Qed.
Lemma unpack_exact arch top w b w' es : ready w -> top <> [] -> qFate w = [] -> (forall k, k ∈ way (base w top) (comps top) -> can_be_dir (qFs w) k) ->
  holds_entries w arch es -> Forall tidy es -> pc_unpack G arch top w = (b, w') ->
  (b = true <-> fits G (loc w top) (way (base w top) (comps top)) es (qFs w)) /\
  (b = true -> qOut w' = qOut w ++ concat (map dir_line es) /\ unpacked G (qUmask w) (loc w top) (way (base w top) (comps top)) es (qFs w) (qFs w')).
Proof.
  intros Rw Nt HF HT He Ft H. destruct (proj2 (opened_iff arch w es Rw) HF He) as (s & w1 & EO & EP). destruct (pc_unpack_spec G arch top w b w' Rw Nt H) as [(-> & A & K & O & X)|(s' & es' & es0 & w1' & EO' & EP' & P0 & B0 & K & R & O & T & X)].
  - rewrite (X s w1 EO) in EP. discriminate.
  - assert (s' = s) as -> by congruence. assert (es' = es) as -> by congruence. destruct (X HF HT Ft) as [X1 X2]. split; [exact X1|]. intros Hb. split; [rewrite O, flat_map_concat_map, (B0 Hb); reflexivity|apply X2, Hb].
Qed.
Lemma genuine_fun pass c s s' : genuine_file pass s c -> genuine_file pass s' c -> s' = s.
Proof.
  intros (salt & nonce & LS & e & [LN ->] & E) (salt' & nonce' & LS' & e' & [LN' ->] & E'). rewrite E in E'. apply app_inj_1 in E' as [<- E']; [|congruence]. apply app_inj_1 in E' as [<- E']; [|congruence]. apply sbox_seal_inj in E'. congruence.
Qed.
(** Entries without ".." stay below the output directory. *)
Lemma go_inside T cs : bs ".." ∉ cs -> T `prefix_of` go_to T cs.
Proof.
  revert T. induction cs as [|c cs IH]; intros T N; [reflexivity|]. change (T `prefix_of` go_to (go_step T c) cs). etransitivity; [|apply IH; intros X; apply N; right; exact X]. unfold go_step. case_decide; [reflexivity|]. case_decide as E; [subst; destruct N; left|]. apply prefix_app_r. reflexivity.
Qed.
Lemma inside_needs T x : no_up x -> T `prefix_of` fst (needs T x) /\ T `prefix_of` dest T x.
Proof.
  intros N. unfold no_up in N. split; [|apply go_inside, N]. unfold needs. destruct (folder x); cbn [fst]; [apply go_inside, N|]. assert (bs ".." ∉ removelast (comps (fPath x))) as N'. { intros X. apply N. pose proof (comps_nonnil (fPath x)) as Nc. destruct (exists_last Nc) as (cs & c & E). rewrite E in *. rewrite removelast_last in X. apply elem_of_app. auto. }
  unfold dir_of. cbv zeta. rewrite match_rooted. destruct (is_rooted (fPath x)); [rewrite norm_no_up by exact N'|]; apply go_inside, N'.
Qed.
Lemma unpack_inside arch top w b w' es : ready w -> top <> [] -> holds_entries w arch es -> Forall no_up es -> pc_unpack G arch top w = (b, w') ->
  forall l, qFs w' !! l = qFs w !! l \/ l ∈ way (base w top) (comps top) \/ loc w top `prefix_of` l.
Proof.
  intros Rw Nt He Nu H l. destruct (unpack_touches arch top w b w' Rw Nt H) as (_ & R' & [(_ & -> & _)|(es' & es0 & He' & _ & _ & _ & T)]); [left; reflexivity|].
  assert (es' = es) as ->. { destruct He as (_ & m & d & c & pass & pws & s & A & B & D & E & F), He' as (_ & m' & d' & c' & pass' & pws' & s' & A' & B' & D' & E' & F'). assert (d' = d) as -> by congruence. assert (pass' = pass) as -> by congruence. pose proof (enclosed_fun _ _ _ B B') as <-.
    assert (s' = s) as -> by (eapply genuine_fun; eassumption). congruence. }
  rewrite Forall_forall in Nu. destruct (T l) as [X|[(X1 & X2 & [X3|(x & Hx & X3)])|(x & d & m' & Hx & Fx & -> & _)]]; [auto|auto| |].
  - destruct (inside_needs (loc w top) x (Nu x Hx)) as [P1 _]. destruct (prefix_weak_total l (loc w top) _ X3 P1) as [Y|Y]; [|auto]. unfold loc in Y. apply prefix_way in Y as [Y|Y]; [|auto]. destruct (sane_dirs _ _ l (proj1 Rw) (ready_base w top Rw) Y) as [m Z]. congruence.
  - right. right. apply inside_needs, Nu, Hx.
Qed.
(** One file: what there is afterwards. *)
Lemma unpack_over arch top w w' x m old : ready w -> top <> [] -> qFate w = [] -> (forall k, k ∈ way (base w top) (comps top) -> can_be_dir (qFs w) k) ->
  holds_entries w arch [x] -> tidy x -> folder x = false -> qFs w !! dest (loc w top) x = Some (Reg m old) -> pc_unpack G arch top w = (true, w') ->
  qFs w' !! dest (loc w top) x = Some (Reg m (contents G x ++ drop (length (contents G x)) old)).
Proof.
  intros Rw Nt HF HT He Ft Fx E H. destruct (unpack_exact arch top w true w' [x] Rw Nt HF HT He ltac:(constructor; [exact Ft|constructor]) H) as [_ X]. destruct (X eq_refl) as [_ U]. rewrite (U (dest (loc w top) x)), E. unfold written. rewrite filter_one. assert (file_at (loc w top) (dest (loc w top) x) x = true) as -> by (apply file_at_iff; auto). reflexivity.
Qed.
Lemma comps_climbs n c : fname c -> comps (climbs n c) = repeat (bs "..") n ++ [c].
Proof.
  intros F. induction n as [|n IH]; [apply fname_comps, F|]. cbn [climbs repeat app]. change (bs "../" ++ climbs n c) with (bs ".." ++ slash :: climbs n c). rewrite comps_app; [rewrite IH; reflexivity|]. apply not_elem. reflexivity.
Qed.
Lemma go_ups T n : (length T <= n)%nat -> go_to T (repeat (bs "..") n) = [].
Proof.
  revert T. induction n as [|n IH]; intros T Ln; [destruct T; [reflexivity|cbn in Ln; lia]|]. cbn [repeat]. change (go_to (go_step T (bs "..")) (repeat (bs "..") n) = []). rewrite go_up. apply IH. destruct T as [|a T]; [cbn; lia|]. rewrite removelast_firstn_len, firstn_length. cbn [length] in *. lia.
Qed.
Lemma dir_of_climbs T n c : fname c -> (length T <= n)%nat -> dir_of T (climbs n c) = [].
Proof.
  intros F Ln. assert (exists c0 r, climbs n c = c0 :: r /\ c0 <> x2f) as (c0 & r & E & N0). { destruct n as [|n]; [|cbn; do 2 eexists; split; [reflexivity|discriminate]]. cbn [climbs]. destruct F as (A & _ & _ & S). destruct c as [|a c]; [contradiction|]. exists a, c. split; [reflexivity|]. intros ->. apply S. left. }
  unfold dir_of. cbv zeta. rewrite match_rooted. assert (is_rooted (climbs n c) = false) as -> by (rewrite E, <- head_rooted; apply bool_decide_eq_false; intros [= X]; exact (N0 X)). rewrite comps_climbs by exact F. rewrite removelast_last. apply go_ups, Ln.
Qed.
Lemma unpack_escapes arch top w n c mode z d : ready w -> top <> [] -> qFate w = [] -> (forall k, k ∈ way (base w top) (comps top) -> can_be_dir (qFs w) k) ->
  fname c -> (length (loc w top) <= n)%nat -> Z.testbit mode 31 = false -> gzRead G z = Some (d, true) -> qFs w !! [c] = None -> [c] ∉ way (base w top) (comps top) ->
  holds_entries w arch [File (climbs n c) mode z] -> exists w', pc_unpack G arch top w = (true, w') /\ qFs w' !! [c] = Some (Reg (lowered (qUmask w) mode) d).
Proof.
  intros Rw Nt HF HT Fc Ln Fm Gz En Nw He. set (x := File (climbs n c) mode z) in *. destruct (pc_unpack G arch top w) as [b w'] eqn:H. set (T := loc w top) in *.
  assert (dest T x = [c]) as Dx. { unfold dest, x. cbn [fPath]. rewrite comps_climbs by exact Fc. rewrite go_app, go_ups by exact Ln. apply go_names. constructor; [exact Fc|constructor]. }
  assert (fst (needs T x) = []) as Nx. { unfold needs, folder, x. cbn [fMode fPath fst]. rewrite Fm. apply dir_of_climbs; assumption. }
  assert (tidy x) as Tx. { split; [|intros _; exists (repeat (bs "..") n), c; split; [apply comps_climbs, Fc|exact Fc]]. cbn [fPath x]. intros Hr. exfalso. destruct n as [|n]; [|discriminate Hr]. cbn [climbs] in Hr. destruct Fc as (_ & _ & _ & S). destruct c; [discriminate|]. injection Hr as ->. apply S. left. }
  destruct (unpack_exact arch top w b w' [x] Rw Nt HF HT He ltac:(constructor; [exact Tx|constructor]) H) as [X Y]. fold T in X, Y.
  assert (b = true) as ->.
  { apply X. intros y ->%elem_of_list_singleton. split.
    - rewrite Nx. intros l ->%prefix_nil_inv. split; [right; apply sane_root, Rw|]. intros y ->%elem_of_list_singleton _. rewrite Dx. discriminate.
    - intros _. rewrite Dx. split; [left; exact En|]. split; [exact Nw|]. exists d. exact Gz. }
  exists w'. split; [reflexivity|]. destruct (Y eq_refl) as [_ U]. rewrite (U [c]), En. rewrite filter_one. assert (file_at T [c] x = true) as Ax by (apply file_at_iff; split; [exact Fm|exact Dx]). rewrite Ax. cbn [head]. unfold written. rewrite filter_one, Ax. cbn [map fold_left]. rewrite over_nil. unfold contents. cbn [fData x fMode]. rewrite Gz. reflexivity.
Qed.

(** *** Round trip *)
Lemma round_trip paths armour out w w1 pass pws m d arch top w2 m2 pws2 :
  (forall z, gzRead G (gzZip G z) = Some (z, true)) ->
  ready w -> qFate w = [] -> paths <> [] -> qPw w = Some pass :: pws -> pc_pack G paths armour out w = (true, w1) ->
  qFs w1 !! loc w out = Some (Reg m d) -> zlen d < 2 ^ 31 -> (armour = false -> forall u v, d <> u ++ bs "-----BEGIN " ++ v) ->
  Forall (fun p => bs ".." ∉ root_names p) paths -> (forall i j p q, paths !! i = Some p -> paths !! j = Some q -> root_names p `prefix_of` root_names q -> i = j) ->
  ready w2 -> qFate w2 = [] -> qPw w2 = Some pass :: pws2 -> reaches w2 arch -> qFs w2 !! loc w2 arch = Some (Reg m2 d) ->
  top <> [] -> (forall k, k ∈ way (base w2 top) (comps top) -> can_be_dir (qFs w2) k) ->
  (forall u, u <> [] -> qFs w2 !! (loc w2 top ++ u) = None /\ loc w2 top ++ u ∉ way (base w2 top) (comps top)) ->
  exists w3, pc_unpack G arch top w2 = (true, w3) /\
    (forall i p s, paths !! i = Some p -> root_names p ++ s <> [] -> qFs w3 !! (loc w2 top ++ root_names p ++ s) = copy_of (qUmask w2) (qFs w !! (loc w p ++ s))) /\
    (forall l, l ∉ way (base w2 top) (comps top) -> (forall i p, paths !! i = Some p -> ~ loc w2 top ++ root_names p `prefix_of` l /\ ~ l `prefix_of` loc w2 top ++ root_names p) -> qFs w3 !! l = qFs w2 !! l).
Proof.
  intros Law Rw HF Np EP HP Ed Ld Nm Nu Dis R2 HF2 EP2 Re E2 Nt HT HU. destruct (pc_pack_success G paths armour out w w1 Rw Np HP) as (_ & _ & pass' & pws' & salt & nonce & g & cuts & es & s & c & m' & EP' & _ & LS & LN & _ & _ & Li & Ct & Go & De & _ & FF & Ec & _).
  assert (pass' = pass) as -> by congruence. assert (d = content armour c) as -> by congruence. specialize (Ct HF).
  assert (zlen s < 2 ^ 31) as Ls. { pose proof (content_longer armour c). pose proof (format_longer _ _ _ _ _ _ _ _ FF). unfold zlen in *. lia. }
  assert (parse_files s = Some es) as EPs. { rewrite <- (app_nil_r s). apply parse_files_back; [apply De; lia|exact Go|exact Ls]. }
  assert (holds_entries w2 arch es) as He. { split; [exact Re|]. exists m2, (content armour c), c, pass, pws2, s. split; [exact E2|]. split; [apply content_enclosed; intros ->; apply Nm; reflexivity|]. split; [exact EP2|]. split; [exists salt, nonce; exact FF|exact EPs]. }
  destruct (copy_spec G w cuts paths es (loc w2 top) (way (base w2 top) (comps top)) (qFs w2) Rw Li Ct Nu Dis Law) as (Ft & Fi & Cp).
  { intros k Hk. unfold loc in Hk. apply prefix_way in Hk as [Hk|Hk]; [right; eapply sane_dirs; [apply R2|apply ready_base, R2|exact Hk]|apply HT, Hk]. } { exact HU. }
  destruct (pc_unpack G arch top w2) as [b w3] eqn:H3. destruct (unpack_exact arch top w2 b w3 es R2 Nt HF2 HT He Ft H3) as [X Y]. assert (b = true) as -> by (apply X, Fi). exists w3. split; [reflexivity|]. destruct (Y eq_refl) as [_ U]. apply Cp, U.
Qed.
(** A directory that cannot be read is packed as if it were empty, without an error. *)
Lemma unreadable_dropped p armour out w j pass pws salt nonce g m : ready w -> reaches w p -> qFs w !! loc w p = Some (Dir m) -> qFate w = [None; Some j] -> can_write w out ->
  qPw w = Some pass :: pws -> length salt = 32%nat -> length nonce = 24%nat -> delivers (qRng w) (salt ++ nonce) g -> utf8_text (named p []) ->
  exists w' s c m', pc_pack G [p] armour out w = (true, w') /\ (zlen s < 2 ^ 64 -> files_der [File (named p []) (2 ^ 31 + m) []] s) /\ file_format (2 ^ 20) 8 2 pass salt nonce s c /\ qFs w' !! loc w out = Some (Reg m' (content armour c)).
Proof.
  intros Rw Re Em HF CW EP LS LN D U. unfold pc_pack. rewrite decide_False by discriminate. unfold q_pass. rewrite EP. cbn [qRng]. unfold delivers in D. rewrite map_app, <- app_assoc in D. rewrite (rand_delivers 32 (qRng w) salt (map Some nonce ++ g) LS D). rewrite derive_key_is.
  set (w2 := set_qrng _ _). assert (alike w w2) as A2 by (split; reflexivity). cbn [pack_roots]. unfold sys_stat, fate. change (qFate w2) with (qFate w). rewrite HF. set (w3 := PW _ _ _ _ _ _ _). assert (alike w w3) as A3 by (split; reflexivity).
  destruct (proj2 (locate_reaches w3 p (Dir m) (alike_ready _ _ A3 Rw))) as (l & El & En). { split; [apply (alike_reaches w w3 p A3), Re|]. rewrite (alike_loc w w3 p A3). exact Em. }
  rewrite El, En. rewrite pack_walk_S. unfold sys_names, fate. cbn [qFate w3]. set (w4 := PW _ _ _ _ _ [] _). assert (alike w w4) as A4 by (split; reflexivity). cbn [app]. rewrite named_clean. change ModeDir with (2 ^ 31). set (x := File (named p []) (2 ^ 31 + m) []).
  destruct (der_files [x]) as [s|] eqn:ED; [|apply der_files_none in ED as (y & ->%elem_of_list_singleton & Ny); destruct (Ny U)]. change (qRng w4) with (map Some nonce ++ g). rewrite (encrypt_delivers _ s (map Some nonce ++ g) nonce g LN) by reflexivity.
  set (w5 := set_qrng w4 g). assert (alike w w5) as A5 by (split; reflexivity). set (e := salt ++ nonce ++ _). change (if armour then pem_encode archive_type [] e else e) with (content armour e). fold (put_out out 420 (content armour e) w5). destruct (put_out out 420 (content armour e) w5) as [b w'] eqn:EO.
  destruct (put_out_spec _ _ _ _ _ _ (alike_ready _ _ A5 Rw) EO) as (_ & _ & _ & _ & Su & Lv). rewrite Lv in * by (first [reflexivity|apply (alike_can_write w w5 out A5), CW]). destruct (Su eq_refl) as (_ & m' & E' & _). rewrite (alike_loc w w5 out A5) in E'.
  exists w', s, e, m'. split; [reflexivity|]. split; [apply der_files_is; [constructor; [|constructor]|exact ED]|]. { unfold go_file, int64, x. cbn [fMode]. destruct Rw as ((_ & _ & A & _) & _). apply A in Em. lia. }
  split; [|exact E']. split; [exact LS|]. eexists. split; [split; [exact LN|reflexivity]|reflexivity].
Qed.
End WithCrypto.

(** *** Directory permissions *)
Lemma land_low q r k : 0 <= k < 512 -> Z.land (512 * q + r) k = Z.land r k.
Proof.
  intros H. assert (k = Z.land 511 k) as E. { symmetry. rewrite Z.land_comm. change 511 with (Z.ones 9). rewrite Z.land_ones by lia. apply Z.mod_small. lia. } rewrite E, !Z.land_assoc. f_equal. change 511 with (Z.ones 9). rewrite !Z.land_ones by lia. replace (512 * q + r) with (r + q * 2 ^ 9) by lia. apply Z_mod_plus_full.
Qed.
Definition raised (r : Z) : Z :=
  let r := if decide (Z.land r 7 <> 0) then r + 1 else r in
  let r := if decide (Z.land r 56 <> 0) then r + 8 else r in
  if decide (Z.land r 448 <> 0) then r + 64 else r.
Lemma dir_perm_low q r : dir_perm (512 * q + r) = (512 * q + raised r) mod 2 ^ 32.
Proof.
  unfold dir_perm, raised. rewrite (land_low q r 7) by lia. set (a := if decide (Z.land r 7 <> 0) then r + 1 else r). assert ((if decide (Z.land r 7 <> 0) then 512 * q + r + 1 else 512 * q + r) = 512 * q + a) as -> by (unfold a; case_decide; lia).
  rewrite (land_low q a 56) by lia. set (b := if decide (Z.land a 56 <> 0) then a + 8 else a). assert ((if decide (Z.land a 56 <> 0) then 512 * q + a + 8 else 512 * q + a) = 512 * q + b) as -> by (unfold b; case_decide; lia).
  rewrite (land_low q b 448) by lia. f_equal. case_decide; lia.
Qed.
Definition low_bits (r : Z) : bool :=
  forallb (fun i => eqb (Z.testbit (raised r) i) (if decide (i = 0 \/ i = 3 \/ i = 6) then Z.testbit r i || Z.testbit r (i + 1) || Z.testbit r (i + 2) else Z.testbit r i)) [0; 1; 2; 3; 4; 5; 6; 7; 8].
Lemma low_table : forallb (fun n => let r := Z.of_nat n in eqb (low_bits r) (bool_decide (Z.land r 73 = 0)) && (negb (bool_decide (Z.land r 73 = 0)) || bool_decide (0 <= raised r < 512))) (seq 0 512) = true.
Proof. vm_compute. reflexivity. Qed.
Lemma low_case r : 0 <= r < 512 -> (low_bits r = true <-> Z.land r 73 = 0) /\ (Z.land r 73 = 0 -> 0 <= raised r < 512).
Proof.
  intros H. pose proof low_table as T. rewrite forallb_forall in T. specialize (T (Z.to_nat r)). cbv zeta in T. rewrite Z2Nat.id in T by lia. apply andb_true_iff in T as [T1 T2]; [|apply in_seq; lia]. apply eqb_prop in T1. rewrite T1, bool_decide_eq_true. split; [reflexivity|]. intros E. apply orb_true_iff in T2 as [T2|T2]; [apply negb_true_iff, bool_decide_eq_false in T2; contradiction|apply bool_decide_eq_true in T2; exact T2].
Qed.
Lemma bit_low q r i : 0 <= i < 9 -> Z.testbit (512 * q + r) i = Z.testbit r i.
Proof. intros H. rewrite <- (Z.mod_pow2_bits_low (512 * q + r) 9 i), <- (Z.mod_pow2_bits_low r 9 i) by lia. f_equal. replace (512 * q + r) with (r + q * 2 ^ 9) by lia. apply Z_mod_plus_full. Qed.
Lemma bit_high q r i : 0 <= r < 512 -> 9 <= i -> Z.testbit (512 * q + r) i = Z.testbit q (i - 9).
Proof. intros R H. replace i with (i - 9 + 9) at 1 by lia. rewrite <- Z.div_pow2_bits by lia. f_equal. replace (512 * q + r) with (r + q * 2 ^ 9) by lia. rewrite Z.div_add by lia. rewrite Z.div_small by lia. lia. Qed.
(** Exactly the modes without any execute bit. *)
Lemma dir_perm_exact mode : searchable mode (dir_perm mode) <-> Z.land mode 73 = 0.
Proof.
  set (q := mode / 512). set (r := mode mod 512). assert (mode = 512 * q + r) as E by (unfold q, r; apply Z_div_mod_eq_full). assert (0 <= r < 512) as R by (unfold r; apply Z.mod_pos_bound; lia). rewrite E. clearbody q r. clear E mode. rewrite land_low by lia. destruct (low_case r R) as [Lo Hi].
  rewrite dir_perm_low. split.
  - intros S. apply Lo. unfold low_bits. apply forallb_forall. intros i Hi'. assert (0 <= i < 9) as Ri by (cbn in Hi'; lia). specialize (S i ltac:(lia)). rewrite Z.mod_pow2_bits_low in S by lia. rewrite bit_low in S by lia. rewrite S. apply eqb_true_iff. case_decide as D; [rewrite !bit_low by lia; reflexivity|rewrite bit_low by lia; reflexivity].
  - intros Z0. specialize (Hi Z0). apply Lo in Z0. unfold low_bits in Z0. rewrite forallb_forall in Z0. intros i Hi'. rewrite Z.mod_pow2_bits_low by lia. destruct (Z.lt_ge_cases i 9) as [L9|L9].
    + assert (In i [0; 1; 2; 3; 4; 5; 6; 7; 8]) as Ii by (cbn; lia). specialize (Z0 i Ii). apply eqb_prop in Z0. rewrite bit_low by lia. rewrite Z0. case_decide as D; [rewrite !bit_low by lia; reflexivity|rewrite bit_low by lia; reflexivity].
    + rewrite decide_False by lia. rewrite !bit_high by lia. reflexivity.
Qed.

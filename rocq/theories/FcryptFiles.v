(** Proofs about Fcrypt.v: the commands on files. *)
From Verif Require Export FcryptStore PublicFacts.
Local Open Scope Z_scope.

(** *** Armour *)
Lemma looks_iff s : looks_armoured s = true <-> begins_like_armour s.
Proof.
  unfold looks_armoured. rewrite andb_true_iff, !bool_decide_eq_true. split.
  - intros [H1 H2]. exists (drop 10 s). rewrite <- H2, take_drop. split; [reflexivity|]. intros E. apply (f_equal length) in E. rewrite drop_length in E. cbn in E. lia.
  - intros (rest & -> & N). rewrite app_length, take_app_alt by reflexivity. split; [|reflexivity]. destruct rest; [contradiction|]. cbn. lia.
Qed.
Lemma looks_not s : looks_armoured s = false <-> ~ begins_like_armour s.
Proof. rewrite <- looks_iff. destruct (looks_armoured s); split; congruence. Qed.
Lemma pem_begins ty b : begins_like_armour (pem_encode ty [] b).
Proof. unfold pem_encode. eexists. split; [reflexivity|]. discriminate. Qed.
Lemma pem_own ty b : pem_type ty -> pem_decode (pem_encode ty [] b) = Some (ty, b).
Proof. intros T. rewrite <- (app_nil_r (pem_encode ty [] b)). apply pem_roundtrip; [exact T|constructor]. Qed.
Lemma our_types : pem_type EncryptedType /\ pem_type SignatureType /\ pem_type SignedAndEncryptedType.
Proof. split; [|split]; (split; intros I; repeat (apply elem_of_cons in I as [I|I]; [discriminate I|]); inversion I). Qed.
Lemma armour_taken a ty c text : pem_type ty -> armoured_as a ty c text -> (a = false -> ~ begins_like_armour c) -> taken_as text (if a then Some ty else None) c.
Proof. intros T -> N. destruct a; [split; [apply pem_begins|apply pem_own, T]|split; [apply N; reflexivity|reflexivity]]. Qed.
Lemma open_armour_iff text signed c : open_armour text = Some (signed, c) <->
  if signed then taken_as text (Some SignedAndEncryptedType) c else taken_as text (Some EncryptedType) c \/ taken_as text None c.
Proof.
  unfold open_armour, taken_as. destruct (looks_armoured text) eqn:E; cbn [negb].
  - apply looks_iff in E. destruct (pem_decode text) as [[ty b]|].
    2:{ split; [discriminate|]. destruct signed; [intros [_ [=]]|intros [[_ [=]]|[N _]]; contradiction]. }
    destruct (decide (ty = EncryptedType)) as [->|N1].
    { split; [intros [= <- <-]; auto|]. destruct signed; [intros [_ [= X]]; discriminate X|]. intros [[_ [= ->]]|[N _]]; [reflexivity|contradiction]. }
    destruct (decide (ty = SignedAndEncryptedType)) as [->|N2].
    { split; [intros [= <- <-]; auto|]. destruct signed; [intros [_ [= ->]]; reflexivity|]. intros [[_ X]|[N _]]; [discriminate X|contradiction]. }
    split; [discriminate|]. destruct signed; [intros [_ [= X]]; contradiction|]. intros [[_ [= X]]|[N _]]; contradiction.
  - apply looks_not in E. split; [intros [= <- <-]; auto|]. destruct signed; [intros [X _]; contradiction|]. intros [[X _]|[_ ->]]; [contradiction|reflexivity].
Qed.
Lemma strip_armour_iff want text c : strip_armour want text = Some c <-> taken_as text (Some want) c \/ taken_as text None c.
Proof.
  unfold strip_armour, taken_as. destruct (looks_armoured text) eqn:E; cbn [negb].
  - apply looks_iff in E. destruct (pem_decode text) as [[ty b]|].
    2:{ split; [discriminate|]. intros [[_ [=]]|[N _]]; contradiction. }
    destruct (decide (ty = want)) as [->|N1].
    + split; [intros [= <-]; auto|]. intros [[_ [= ->]]|[N _]]; [reflexivity|contradiction].
    + split; [discriminate|]. intros [[_ [= X]]|[N _]]; contradiction.
  - apply looks_not in E. split; [intros [= <-]; auto|]. intros [[X _]|[_ ->]]; [contradiction|reflexivity].
Qed.

Section WithCrypto.
Context `{C : Crypto} {L : CryptoLaws}.

(** *** Running a command that leaves the store alone *)
Lemma quiet_locked f o l k a s w s2 rep w2 : chosen l = Some (k, a) -> (required_argc k <= length (lArgs l))%nat -> key_file (wFs w) (lPath l) s ->
  needs_unlock k = false -> must k s = false -> fc_run f o k s (cfg_of l a) (tick (tick w)) = Done (s2, rep) w2 -> fc_main f o l w = Done rep w2.
Proof.
  intros Hc Ha K Hn Hm R. rewrite (main_eq f o l k a s w Hc Ha K), Hn. cbn [then_]. rewrite R. cbn [then_ fst snd]. rewrite Hm. apply finish_quiet.
  - eapply run_priv; [|exact R]. apply no_priv, (key_file_locked _ _ _ K).
  - apply K.
  - destruct K as (_ & (d & Hd) & _). eapply touches_exists; [|exact Hd]. eapply touches_keeps; [apply tick2_keeps|]. eapply (fc_run_within f o k s (cfg_of l a)); [exact Ha|]. rewrite R. reflexivity.
Qed.
Definition world1 (w : world) : world := World (wFs w) (wIn w) (drop 1 (wPw w)) (drop 3 (wClk w)) (wRng w) (wFate w) (wOut w).
Lemma main_passes f o l k a s w s1 : chosen l = Some (k, a) -> (required_argc k <= length (lArgs l))%nat -> key_file (wFs w) (lPath l) s ->
  needs_unlock k = true -> passes w s s1 ->
  opened s s1 /\ keeps w (world1 w) /\
  fc_main f o l w = let* (r, w2) := fc_run f o k s1 (cfg_of l a) (world1 w) in finish l k (must k s) (fst r) (snd r) w2.
Proof.
  intros Hc Ha K Hn (pass & ps & Hp & U). destruct (main_opened f o l k a s w pass ps s1 Hc Ha K Hn Hp U) as (A & B & D). cbv zeta in B, D. unfold world1. rewrite Hp. cbn [drop].
  split; [exact A|]. split; [exact B|exact D].
Qed.
Lemma quiet_opened f o l k a s w s1 s2 rep w2 : chosen l = Some (k, a) -> (required_argc k <= length (lArgs l))%nat -> key_file (wFs w) (lPath l) s ->
  needs_unlock k = true -> must k s = false -> passes w s s1 -> fc_run f o k s1 (cfg_of l a) (world1 w) = Done (s2, rep) w2 -> fc_main f o l w = Done rep w2.
Proof.
  intros Hc Ha K Hn Hm P R. destruct (main_passes f o l k a s w s1 Hc Ha K Hn P) as (Op & Kw & ->). rewrite R. cbn [then_ fst snd]. rewrite Hm. apply finish_quiet.
  - eapply run_priv; [|exact R]. eapply opened_go, Op.
  - apply K.
  - destruct K as (_ & (d & Hd) & _). eapply touches_exists; [|exact Hd]. eapply touches_keeps; [exact Kw|]. eapply (fc_run_within f o k s1 (cfg_of l a)); [exact Ha|]. rewrite R. reflexivity.
Qed.
Lemma not_must k s : ~ mutates k -> k <> FCheck -> must k s = false.
Proof. intros A B. destruct (must k s) eqn:E; [|reflexivity]. apply must_iff in E as [E|[E _]]; contradiction. Qed.
Lemma tick2_disk w : disk_ok w -> disk_ok (tick (tick w)).
Proof. auto. Qed.
Lemma write_done w q d : plain_path q -> disk_ok w -> exists w', w_write w q d = (true, w') /\ wFs w' = <[q := d]> (wFs w) /\ wOut w' = wOut w /\ wPw w' = wPw w.
Proof.
  intros Q D. destruct (w_write_succeeds w q d (proj1 Q) D) as [w' E]. exists w'. split; [exact E|]. split; [eapply w_write_ok; eauto|].
  destruct Q as [N1 N2]. unfold w_write in E. rewrite decide_False in E by exact N2. apply raw_write_true in E as (_ & A & _ & B). auto.
Qed.

(** *** Whose key *)
Lemma get_public_exact s l p : healthy s -> get_public s l = Ret (Some p) <->
  exists e v, p = PubKey (Some e) (Some v) /\ length e = 32%nat /\ length v = 32%nat /\ key_under s l (e ++ v).
Proof.
  intros (R & Lo & O). unfold get_public, key_under. change self with (bs "self"). destruct (ks_has s l) eqn:Hh; cbn [negb].
  - destruct (decide (l = bs "self")) as [->|N].
    + destruct (ksLocked s) eqn:Lk.
      * rewrite obytes_octets. fold (owner s). split.
        -- intros [= H]. apply unmarshal_public_exact in H as (e & v & H1 & H2 & H3 & ->). exists e, v. auto 8.
        -- intros (e & v & -> & H1 & H2 & [[_ H3]|[X _]]); [|contradiction]. rewrite <- H3. f_equal. apply unmarshal_public_exact. eauto 8.
      * destruct (O eq_refl) as (k & -> & Ow). cbn [deref obind]. destruct (owns_pub s k Ow) as (e & v & -> & H1 & H2 & H3). split.
        -- intros [= <-]. exists e, v. auto 8.
        -- intros (e' & v' & -> & H1' & H2' & [[_ H3']|[X _]]); [|contradiction]. rewrite H3 in H3'. apply app_inj_1 in H3' as [-> ->]; [reflexivity|congruence].
    + split.
      * destruct (keys_of s l) as [k|] eqn:E; [|discriminate]. cbn [obind]. apply keys_of_inv in E as (r & Kr & ->). rewrite obytes_octets. fold (subject r).
        intros [= H]. apply unmarshal_public_exact in H as (e & v & H1 & H2 & H3 & ->). exists e, v. split; [reflexivity|]. split; [exact H1|]. split; [exact H2|]. right. split; [exact N|]. exists r. auto.
      * intros (e & v & -> & H1 & H2 & [[X _]|(_ & r & Kr & H3)]); [contradiction|]. rewrite (keys_of_record _ _ _ Kr). cbn [obind]. rewrite obytes_octets. fold (subject r). rewrite <- H3.
        f_equal. apply unmarshal_public_exact. eauto 8.
  - split; [discriminate|]. intros (e & v & _ & _ & _ & H). assert (ks_has s l = true) as X; [|congruence]. apply ks_has_iff. split; [exact R|].
    destruct H as [[-> _]|(_ & r & (m & Em & Hm) & _)]; [auto|]. right. exists m. eauto.
Qed.
Lemma get_public_total s l : healthy s -> kwell s -> exists p, get_public s l = Ret p.
Proof.
  intros (R & Lo & O) W. unfold get_public. change self with (bs "self"). destruct (ks_has s l) eqn:Hh; cbn [negb]; [|eauto].
  destruct (decide _) as [->|N].
  - destruct (ksLocked s) eqn:Lk; [eauto|]. destruct (O eq_refl) as (k & -> & _). cbn. eauto.
  - apply ks_has_iff in Hh as [_ [X|(m & v & Em & Hm)]]; [contradiction|]. destruct (W m l v Em Hm) as (_ & r & -> & _).
    rewrite (keys_of_record s l r) by (exists m; auto). cbn. eauto.
Qed.
Lemma key_under_length s l e v : length e = 32%nat -> key_under s l (e ++ v) -> drop 32 (e ++ v) = v.
Proof. intros H _. rewrite drop_app_alt by auto. reflexivity. Qed.
Lemma ks_verify_exact s l m sig : healthy s -> kwell s -> exists b, ks_verify s l m sig = Ret b /\ (b = true <-> signed_by s l m sig).
Proof.
  intros Hh W. unfold ks_verify. pose proof Hh as (R & _). rewrite (proj2 (ks_quick_iff s) R). cbn [negb].
  destruct (get_public_total s l Hh W) as [p E]. rewrite E. cbn [obind].
  assert (signed_by s l m sig <-> exists p', p = Some p' /\ verify (Some p') m sig = Ret true) as Key.
  { split.
    - intros (key & Ku & Lk & Ls & V). assert (get_public s l = Ret (Some (PubKey (Some (take 32 key)) (Some (drop 32 key))))) as X.
      { apply get_public_exact; [exact Hh|]. exists (take 32 key), (drop 32 key). rewrite take_drop, take_length, drop_length, Lk. auto. }
      assert (p = Some (PubKey (Some (take 32 key)) (Some (drop 32 key)))) as -> by congruence. eexists. split; [reflexivity|]. apply (proj2 (verify_exact _ _ _)). eauto 8.
    - intros (p' & -> & V). apply (get_public_exact s l p' Hh) in E as (e & v & -> & H1 & H2 & Ku). apply (proj2 (verify_exact _ _ _)) in V as (e' & v' & [= <- <-] & Ls & V).
      exists (e ++ v). split; [exact Ku|]. split; [rewrite app_length; lia|]. split; [exact Ls|]. rewrite (key_under_length s l) by assumption. exact V. }
  destruct (ks_has s l) eqn:Hx; cbn [negb].
  - destruct p as [p|].
    + destruct (proj1 (verify_exact (Some p) m sig)) as [b Eb]. exists b. split; [exact Eb|]. rewrite Key. split; [intros ->; eauto|intros (p' & [= <-] & X); congruence].
    + exists false. split; [reflexivity|]. rewrite Key. split; [discriminate|intros (p' & [=] & _)].
  - exists false. split; [reflexivity|]. rewrite Key. split; [discriminate|]. intros (p' & -> & _). unfold get_public in E. rewrite Hx in E. discriminate E.
Qed.

(** *** Signing and verifying *)
Lemma fcr_verifying f o a l w p q s m text sig : on_files FVerify a l w p q s -> kwell s -> wFs w !! p = Some m -> wFs w !! q = Some text ->
  taken_as text (Some (bs "CRYPTUTIL SIGNATURE")) sig \/ taken_as text None sig ->
  exists w', fc_main f o l w = Done RNone w' /\ wFs w' = wFs w /\ wPw w' = wPw w /\
    (signed_by s (lLabel l) m sig -> wOut w' = wOut w ++ bs "Signature: OK" ++ [x0a]) /\
    (~ signed_by s (lLabel l) m sig -> wOut w' = wOut w ++ bs "Signature: INVALID" ++ [x0a]).
Proof.
  intros (K & Hc & (rest & Ha) & Pp & Pq & D) W Fp Fq T. destruct (ks_verify_exact s (lLabel l) m sig) as (b & E & Hb); [apply K|exact W|].
  assert (fc_run f o FVerify s (cfg_of l a) (tick (tick w)) = Done (s, RNone) (w_print (tick (tick w)) (verdict b))) as R.
  { cbn [fc_run]. unfold fc_verify, farg. cbn [fArgs fLabel cfg_of]. rewrite Ha. cbn [nth]. rewrite !w_read_plain by assumption. cbn [tick wFs]. rewrite Fp, Fq.
    rewrite (proj2 (strip_armour_iff SignatureType text sig) T), E. reflexivity. }
  exists (w_print (tick (tick w)) (verdict b)). split; [eapply quiet_locked; try exact R; try eassumption; try reflexivity; rewrite Ha; cbn; lia|].
  split; [reflexivity|]. split; [reflexivity|]. split; intros X; unfold verdict; cbn [w_print tick wOut].
  - rewrite (proj2 Hb X). reflexivity.
  - destruct b; [|reflexivity]. destruct X. apply Hb. reflexivity.
Qed.
Lemma fcr_signing f o a l w p q s s1 m d seed : on_files FSign a l w p q s -> wFs w !! p = Some m -> passes w s s1 -> holds_pair s1 d seed ->
  length d = 32%nat -> length seed = 32%nat ->
  exists sig text w', fc_main f o l w = Done RNone w' /\ wFs w' = <[q := text]> (wFs w) /\ wOut w' = wOut w /\ wPw w' = drop 1 (wPw w) /\ length sig = 64%nat /\
    armoured_as a (bs "CRYPTUTIL SIGNATURE") sig text /\
    ((a = false -> ~ begins_like_armour sig) -> forall f2 o2 a2 l2 w2 p2 q2 s2, on_files FVerify a2 l2 w2 p2 q2 s2 -> kwell s2 ->
       wFs w2 !! p2 = Some m -> wFs w2 !! q2 = Some text -> key_under s2 (lLabel l2) (pub_of d seed) ->
       exists w3, fc_main f2 o2 l2 w2 = Done RNone w3 /\ wFs w3 = wFs w2 /\ wOut w3 = wOut w2 ++ bs "Signature: OK" ++ [x0a]).
Proof.
  intros (K & Hc & (rest & Ha) & Pp & Pq & D) Fp Ps HP Hd Hs. pose proof HP as (R & Lk & Pk & Ow).
  destruct (sign_verify d seed m Hs) as (sig & E & Ls & V). set (text := armoured a SignatureType sig).
  destruct (write_done (world1 w) q text Pq D) as (w' & Ew & F1 & F2 & F3).
  assert (fc_run f o FSign s1 (cfg_of l a) (world1 w) = Done (s1, RNone) w') as Rn.
  { cbn [fc_run]. unfold fc_sign, farg. cbn [fArgs fLabel fArmour cfg_of]. rewrite Ha. cbn [nth]. rewrite w_read_plain by assumption. cbn [world1 wFs]. rewrite Fp.
    unfold ks_sign. rewrite (holds_pair_valid s1 d seed) by assumption. rewrite Lk, Pk. cbn [obind negb orb]. rewrite E. cbn [lift then_ fmap option_fmap option_map put_out].
    fold text. change (World (wFs w) (wIn w) (drop 1 (wPw w)) (drop 3 (wClk w)) (wRng w) (wFate w) (wOut w)) with (world1 w). rewrite Ew. reflexivity. }
  exists sig, text, w'. split; [eapply quiet_opened; try exact Rn; try eassumption; try reflexivity; rewrite Ha; cbn; lia|].
  split; [exact F1|]. split; [exact F2|]. split; [exact F3|]. split; [exact Ls|]. split; [destruct a; reflexivity|].
  intros N f2 o2 a2 l2 w2 p2 q2 s2 On W2 Fm Ft Ku.
  assert (taken_as text (if a then Some SignatureType else None) sig) as T by (apply armour_taken; [apply our_types|destruct a; reflexivity|exact N]).
  destruct (fcr_verifying f2 o2 a2 l2 w2 p2 q2 s2 m text sig On W2 Fm Ft) as (w3 & E3 & A & _ & B & _); [destruct a; auto|]. exists w3. split; [exact E3|]. split; [exact A|]. apply B.
  exists (pub_of d seed). split; [exact Ku|]. split; [apply length_pub_of|]. split; [exact Ls|].
  apply (proj2 (verify_exact _ _ _)) in V as (e & v & X & _ & V). unfold pub_of. rewrite drop_app_alt by (symmetry; apply box_pub_length). unfold keypair in X. cbn [kPub] in X. injection X as <- <-. exact V.
Qed.

(** *** Encrypting and decrypting *)
Lemma decrypt_run f o l a s1 w m text out signed c p q : lArgs l = p :: q :: [] \/ (exists rest, lArgs l = p :: q :: rest) -> plain_path p -> plain_path q -> disk_ok w ->
  wFs w !! p = Some text -> open_armour text = Some (signed, c) -> (if signed then ks_decrypt_verify s1 (lLabel l) c else ks_decrypt s1 c) = Ret (Some m) ->
  out = (if signed then bs "Valid signature." ++ [x0a] else []) ->
  exists w', fc_run f o FDecrypt s1 (cfg_of l a) (world1 w) = Done (s1, RNone) w' /\ wFs w' = <[q := m]> (wFs w) /\ wOut w' = wOut w ++ out.
Proof.
  intros Ha' Pp Pq D Fp Oa E ->. assert (exists rest, lArgs l = p :: q :: rest) as (rest & Ha) by (destruct Ha' as [->|?]; eauto).
  set (w1 := if signed then w_print (world1 w) (bs "Valid signature." ++ [x0a]) else world1 w).
  destruct (write_done w1 q m Pq) as (w' & Ew & F1 & F2 & _); [unfold w1; destruct signed; exact D|]. exists w'.
  split; [|split; [rewrite F1; unfold w1; destruct signed; reflexivity|rewrite F2; unfold w1; destruct signed; [reflexivity|rewrite app_nil_r; reflexivity]]].
  cbn [fc_run]. unfold fc_decrypt, farg. cbn [fArgs fLabel fArmour cfg_of]. rewrite Ha. cbn [nth]. rewrite w_read_plain by assumption. cbn [world1 wFs]. rewrite Fp, Oa, E. cbn [lift then_ put_out].
  change (World (wFs w) (wIn w) (drop 1 (wPw w)) (drop 3 (wClk w)) (wRng w) (wFate w) (wOut w)) with (world1 w). fold w1. rewrite Ew. reflexivity.
Qed.
Lemma fcr_encrypting f o a l w p q s m d seed ep nonce g' : on_files FEncrypt a l w p q s -> wFs w !! p = Some m -> key_under s (lLabel l) (pub_of d seed) ->
  length d = 32%nat -> length seed = 32%nat -> 1 <= zlen m < 2 ^ 31 -> length ep = 32%nat -> length nonce = 24%nat -> delivers (wRng w) (ep ++ nonce) g' ->
  exists c text w', fc_main f o l w = Done RNone w' /\ wFs w' = <[q := text]> (wFs w) /\ wOut w' = wOut w /\ wPw w' = wPw w /\
    armoured_as a (bs "CRYPTUTIL ENCRYPTED MESSAGE") c text /\
    ((a = false -> ~ begins_like_armour c) -> forall f2 o2 a2 l2 w2 p2 q2 s2 s3, on_files FDecrypt a2 l2 w2 p2 q2 s2 -> wFs w2 !! p2 = Some text ->
       passes w2 s2 s3 -> holds_pair s3 d seed ->
       exists w3, fc_main f2 o2 l2 w2 = Done RNone w3 /\ wFs w3 = <[q2 := m]> (wFs w2) /\ wOut w3 = wOut w2).
Proof.
  intros (K & Hc & (rest & Ha) & Pp & Pq & D) Fp Ku Hd Hs Hm He Hn De. destruct (key_file_locked _ _ _ K) as (R & P0 & Lk & Bl).
  assert (lLabel l = bs "self" /\ owner s = pub_of d seed \/ lLabel l <> bs "self" /\ exists r, krecord s (lLabel l) r /\ subject r = pub_of d seed) as Kn.
  { destruct Ku as [[A B]|(A & r & B & E)]; [left; auto|right; split; [exact A|]; exists r; auto]. }
  destruct (encrypt_decrypt d seed m (wRng w) ep nonce g' Hd He Hn De) as (c & E & _ & Dc). rewrite decide_True in Dc by exact Hm. set (text := armoured a EncryptedType c).
  destruct (write_done (set_rng (tick (tick w)) g') q text Pq D) as (w' & Ew & F1 & F2 & F3).
  assert (fc_run f o FEncrypt s (cfg_of l a) (tick (tick w)) = Done (s, RNone) w') as Rn.
  { cbn [fc_run]. unfold fc_encrypt, farg. cbn [fArgs fLabel fArmour cfg_of]. rewrite Ha. cbn [nth]. rewrite w_read_plain by assumption. cbn [tick wFs]. rewrite Fp. cbn [wRng].
    rewrite (ks_encrypt_to_eq s (lLabel l) d seed) by assumption. change (wRng (tick (tick w))) with (wRng w). rewrite E. cbn [lift then_ fst snd fmap option_fmap option_map put_out].
    match goal with |- context [w_write ?x q _] => change x with (set_rng (tick (tick w)) g') end. fold text. rewrite Ew. reflexivity. }
  exists c, text, w'. split; [eapply quiet_locked; try exact Rn; try eassumption; try reflexivity; rewrite Ha; cbn; lia|].
  split; [exact F1|]. split; [exact F2|]. split; [exact F3|]. split; [destruct a; reflexivity|].
  intros N f2 o2 a2 l2 w2 p2 q2 s2 s3 (K2 & Hc2 & Ha2 & Pp2 & Pq2 & D2) Ft Ps HP.
  assert (taken_as text (if a then Some EncryptedType else None) c) as T by (apply armour_taken; [apply our_types|destruct a; reflexivity|exact N]).
  destruct (decrypt_run f2 o2 l2 a2 s3 w2 m text [] false c p2 q2 (or_intror Ha2) Pp2 Pq2 D2 Ft) as (w3 & Rn2 & G1 & G2); [apply (open_armour_iff text false); destruct a; auto| |reflexivity|].
  { unfold ks_decrypt. rewrite (holds_pair_valid s3 d seed) by assumption. destruct HP as (_ & -> & -> & _). cbn [obind negb orb]. exact Dc. }
  rewrite app_nil_r in G2. exists w3. split; [|auto]. destruct Ha2 as (rest2 & Ha2). eapply quiet_opened; try exact Rn2; try eassumption; try reflexivity; rewrite Ha2; cbn; lia.
Qed.
Lemma fcr_signcrypting f o a l w p q s s1 m da sda db sdb ep nonce g' : on_files FCryptSign a l w p q s -> wFs w !! p = Some m -> passes w s s1 -> holds_pair s1 da sda ->
  knows s1 (lLabel l) db sdb -> length da = 32%nat -> length sda = 32%nat -> length db = 32%nat -> length sdb = 32%nat ->
  1 <= zlen m < 2 ^ 31 - 69 -> length ep = 32%nat -> length nonce = 24%nat -> delivers (wRng w) (ep ++ nonce) g' ->
  exists c w', fc_main f o l w = Done RNone w' /\ wFs w' = <[q := pem_encode (bs "CRYPTUTIL SIGNED AND ENCRYPTED MESSAGE") [] c]> (wFs w) /\ wOut w' = wOut w /\
    (forall f2 o2 a2 l2 w2 p2 q2 s2 s3, on_files FDecrypt a2 l2 w2 p2 q2 s2 -> wFs w2 !! p2 = Some (pem_encode (bs "CRYPTUTIL SIGNED AND ENCRYPTED MESSAGE") [] c) ->
       passes w2 s2 s3 -> holds_pair s3 db sdb -> knows s3 (lLabel l2) da sda ->
       exists w3, fc_main f2 o2 l2 w2 = Done RNone w3 /\ wFs w3 = <[q2 := m]> (wFs w2) /\ wOut w3 = wOut w2 ++ bs "Valid signature." ++ [x0a]) /\
    (~ begins_like_armour c -> forall f2 o2 a2 l2 w2 p2 q2 s2 s3 rep w3, on_files FDecrypt a2 l2 w2 p2 q2 s2 -> wFs w2 !! p2 = Some c ->
       passes w2 s2 s3 -> holds_pair s3 db sdb -> fc_main f2 o2 l2 w2 <> Done rep w3).
Proof.
  intros (K & Hc & (rest & Ha) & Pp & Pq & D) Fp Ps HP Kn Hda Hsa Hdb Hsb Hm He Hn De. pose proof HP as (R & Lk & Pk & Ow).
  assert (a = true) as ->.
  { clear - Hc. unfold chosen in Hc. destruct (lCheck l); [discriminate|]. destruct (lSign l && lEncrypt l); [congruence|]. destruct (lSign l); [discriminate|]. destruct (lVerify l); [discriminate|].
    destruct (lEncrypt l); [discriminate|]. destruct (lDecrypt l); [discriminate|]. destruct (lRemove l); [discriminate|]. destruct (lList l); [discriminate|].
    destruct (lExport l && bool_decide (lLabel l = self)); [discriminate|]. destruct (lExport l); [discriminate|]. destruct (lImport l); [|discriminate]. destruct (lUntrusted l); discriminate. }
  destruct (signcrypt_roundtrip da sda db sdb m (wRng w) ep nonce g' Hsa Hdb He Hn De) as (c & E & _ & Dc & _). specialize (Dc Hm).
  pose (text := armoured true SignedAndEncryptedType c).
  destruct (write_done (set_rng (world1 w) g') q text Pq D) as (w' & Ew & F1 & F2 & F3).
  assert (fc_run f o FCryptSign s1 (cfg_of l true) (world1 w) = Done (s1, RNone) w') as Rn.
  { cbn [fc_run]. unfold fc_cryptsign, farg. cbn [fArgs fLabel fArmour cfg_of]. rewrite Ha. cbn [nth]. rewrite w_read_plain by assumption. cbn [world1 wFs]. rewrite Fp. cbn [wRng].
    unfold ks_encrypt_sign_to. rewrite (holds_pair_valid s1 da sda) by assumption. rewrite Lk, Pk. cbn [obind negb orb].
    rewrite (knows_has s1 (lLabel l) db sdb R Kn), (knows_public s1 (lLabel l) db sdb R Kn). cbn [negb obind].
    change (kPub (keypair db sdb)) with (Some (PubKey (Some (box_pub db)) (Some (ed_pub sdb)))) in *. cbv beta iota. change (wRng (world1 w)) with (wRng w). rewrite E. cbn [lift then_ fst snd].
    match goal with |- context [w_write ?x q _] => change x with (set_rng (world1 w) g') end. fold text. rewrite Ew. reflexivity. }
  exists c, w'. split; [eapply quiet_opened; try exact Rn; try eassumption; try reflexivity; rewrite Ha; cbn; lia|].
  split; [exact F1|]. split; [exact F2|]. split.
  - intros f2 o2 a2 l2 w2 p2 q2 s2 s3 (K2 & Hc2 & Ha2 & Pp2 & Pq2 & D2) Ft Ps2 HB KB. pose proof HB as (R3 & Lk3 & Pk3 & _).
    destruct (decrypt_run f2 o2 l2 a2 s3 w2 m text (bs "Valid signature." ++ [x0a]) true c p2 q2 (or_intror Ha2) Pp2 Pq2 D2 Ft) as (w3 & Rn2 & G1 & G2); [apply (open_armour_iff text true); split; [apply pem_begins|apply pem_own, our_types]| |reflexivity|].
    { unfold ks_decrypt_verify. rewrite (holds_pair_valid s3 db sdb) by assumption. rewrite Lk3, Pk3. cbn [obind negb orb].
      rewrite (knows_has s3 (lLabel l2) da sda R3 KB), (knows_public s3 (lLabel l2) da sda R3 KB). cbn [negb obind]. exact Dc. }
    exists w3. split; [|auto]. destruct Ha2 as (rest2 & Ha2). eapply quiet_opened; try exact Rn2; try eassumption; try reflexivity; rewrite Ha2; cbn; lia.
  - intros N f2 o2 a2 l2 w2 p2 q2 s2 s3 rep w3 (K2 & Hc2 & (rest2 & Ha2) & Pp2 & Pq2 & D2) Ft Ps2 HB H. pose proof HB as (R3 & Lk3 & Pk3 & _).
    destruct (main_passes f2 o2 l2 FDecrypt a2 s2 w2 s3 Hc2) as (_ & _ & Em); [rewrite Ha2; cbn; lia|exact K2|reflexivity|exact Ps2|]. rewrite Em in H. apply then_inv in H as ([s4 rep4] & w4 & H & _).
    cbn [fc_run] in H. apply silent_done in H as [H _]. unfold fc_decrypt, farg in H. cbn [fArgs fLabel fArmour cfg_of] in H. rewrite Ha2 in H. cbn [nth] in H. rewrite w_read_plain in H by assumption.
    cbn [world1 wFs] in H. rewrite Ft in H. rewrite (proj2 (open_armour_iff c false c)) in H by (right; split; [exact N|reflexivity]).
    apply then_inv in H as (out & w5 & H & H2). destruct out as [out|]; [|discriminate H2]. unfold ks_decrypt in H. rewrite (holds_pair_valid s3 db sdb) in H by assumption. rewrite Lk3, Pk3 in H. cbn [obind negb orb] in H.
    destruct (pub_decrypt (Some (keypair db sdb)) c) as [x|] eqn:X; [|discriminate H]. cbn [lift] in H. injection H as -> _. exact (not_confusable da sda db sdb m (wRng w) c g' Hdb E out X).
Qed.

(** What a decryption that succeeds has checked. *)
Lemma fcr_decrypting f o a l w p q s rep w' : on_files FDecrypt a l w p q s -> fc_main f o l w = Done rep w' ->
  exists s1 k d text c m, passes w s s1 /\ opened s s1 /\ ksPriv s1 = Some k /\ kD k = Some d /\ wFs w !! p = Some text /\ wFs w' = <[q := m]> (wFs w) /\
    ((taken_as text (Some (bs "CRYPTUTIL ENCRYPTED MESSAGE")) c \/ taken_as text None c) /\ wOut w' = wOut w /\
       (exists payload, opens_to d c payload /\ is_record m payload)
     \/ taken_as text (Some (bs "CRYPTUTIL SIGNED AND ENCRYPTED MESSAGE")) c /\ wOut w' = wOut w ++ bs "Valid signature." ++ [x0a] /\
       (exists sig r1 r2, opens_to d c (r1 ++ r2) /\ is_record m r1 /\ is_record sig r2 /\ signed_by s1 (lLabel l) m sig)).
Proof.
  intros (K & Hc & (rest & Ha) & Pp & Pq & D) H.
  destruct (main_done_must f o l FDecrypt a s w rep w' Hc) as (pass & s1 & w1 & s2 & w2 & E1 & E2 & Op & E3 & E4 & E5 & E6 & E7 & Kw & R & M0 & _);
    [rewrite Ha; cbn; lia|exact K|reflexivity|exact H|]. rewrite (M0 eq_refl) in *. clear M0. cbn [fc_run] in R. apply silent_done in R as [R ->].
  unfold fc_decrypt, farg in R. cbn [fArgs fLabel fArmour cfg_of] in R. rewrite Ha in R. cbn [nth] in R. rewrite w_read_plain in R by assumption. rewrite E3 in R.
  destruct (wFs w !! p) as [text|] eqn:Fp; [|discriminate R]. destruct (open_armour text) as [[signed c]|] eqn:Oa; [|discriminate R].
  apply then_inv in R as (out & w3 & R1 & R2). destruct out as [m|]; [|discriminate R2]. apply then_inv in R2 as ([] & w4 & R2 & R3). injection R3 as <- <-.
  assert (w3 = w1 /\ (if signed then ks_decrypt_verify s1 (lLabel l) c else ks_decrypt s1 c) = Ret (Some m)) as [-> Dm].
  { destruct (if signed then ks_decrypt_verify s1 (lLabel l) c else ks_decrypt s1 c) as [x|]; [|discriminate R1]. cbn in R1. injection R1 as -> ->. auto. }
  clear R1. apply put_out_done in R2 as (m' & [= <-] & Wr). pose proof (w_write_ok _ _ _ _ Pq Wr) as F1.
  assert (wOut w4 = wOut (if signed then w_print w1 (bs "Valid signature." ++ [x0a]) else w1)) as F2.
  { destruct Pq as [N1 N2]. unfold w_write in Wr. rewrite decide_False in Wr by exact N2. apply raw_write_true in Wr as (_ & _ & _ & B). exact B. }
  assert (ready s) as Rs by apply (key_file_locked _ _ _ K). pose proof (opened_healthy _ _ Rs Op) as Hh.
  pose proof Op as (_ & _ & _ & _ & Lk & _ & _ & k & Pk & Ow). pose proof Ow as (d & sg & e & v & Ek & Wf & Eo).
  apply open_armour_iff in Oa. exists s1, k, d, text, c, m. split; [exists pass, (wPw w1); auto|]. split; [exact Op|]. split; [exact Pk|]. split; [rewrite Ek; reflexivity|].
  split; [reflexivity|]. split; [rewrite F1; destruct signed; cbn; congruence|]. destruct signed.
  - right. split; [exact Oa|]. split; [rewrite F2; cbn [w_print wOut]; congruence|].
    unfold ks_decrypt_verify in Dm. rewrite (proj2 (ks_valid_true s1 (opened_go _ _ Op)) Hh), Lk, Pk in Dm. cbn [obind negb orb] in Dm. destruct (ks_has s1 (lLabel l)); [|discriminate Dm]. cbn [negb] in Dm.
    destruct (get_public s1 (lLabel l)) as [[pk|]|] eqn:G; try discriminate Dm. cbn [obind] in Dm. apply (get_public_exact _ _ _ Hh) in G as (e' & v' & -> & H1 & H2 & Ku).
    apply dav_exact in Dm as (_ & _ & d' & e2 & v2 & payload & sig & r1 & r2 & Ed & [= <- <-] & O & -> & I1 & I2 & Ls & V). rewrite Ek in Ed. injection Ed as <-.
    exists sig, r1, r2. split; [exact O|]. split; [exact I1|]. split; [exact I2|]. exists (e' ++ v'). split; [exact Ku|]. split; [rewrite app_length; lia|]. split; [exact Ls|].
    rewrite (key_under_length s1 (lLabel l)) by assumption. exact V.
  - left. split; [exact Oa|]. split; [rewrite F2; congruence|].
    unfold ks_decrypt in Dm. rewrite (proj2 (ks_valid_true s1 (opened_go _ _ Op)) Hh), Lk, Pk in Dm. cbn [obind negb orb] in Dm.
    apply pub_decrypt_exact in Dm as (_ & _ & d' & payload & Ed & O & I). rewrite Ek in Ed. injection Ed as <-. eauto.
Qed.

(** A signed and encrypted message that cannot be written is reported as written; an
    encrypted one is not. *)
Lemma fcr_write_lost f o a l w p q s s1 m da sda db sdb ep nonce g' rest : key_file (wFs w) (lPath l) s -> chosen l = Some (FCryptSign, a) -> lArgs l = p :: q :: rest ->
  plain_path p -> plain_path q -> wFs w !! p = Some m -> passes w s s1 -> holds_pair s1 da sda ->
  knows s1 (lLabel l) db sdb -> length da = 32%nat -> length sda = 32%nat -> length db = 32%nat -> length sdb = 32%nat ->
  length ep = 32%nat -> length nonce = 24%nat -> delivers (wRng w) (ep ++ nonce) g' -> head (wFate w) = Some WFailOpen ->
  exists w', fc_main f o l w = Done RNone w' /\ wFs w' = wFs w.
Proof.
  intros K Hc Ha Pp Pq Fp Ps HP Kn Hda Hsa Hdb Hsb He Hn De Hf. pose proof HP as (R & Lk & Pk & Ow).
  destruct (signcrypt_roundtrip da sda db sdb m (wRng w) ep nonce g' Hsa Hdb He Hn De) as (c & E & _).
  set (text := armoured a SignedAndEncryptedType c).
  assert (exists w', w_write (set_rng (world1 w) g') q text = (false, w') /\ wFs w' = wFs w) as (w' & Ew & F1).
  { destruct Pq as [N1 N2]. unfold w_write, w_raw_write. rewrite !decide_False by assumption. cbn [set_rng world1 wFate]. destruct (wFate w) as [|x rs]; [discriminate Hf|]. cbn in Hf. injection Hf as ->.
    cbn. eexists. split; reflexivity. }
  exists w'. split; [|exact F1]. eapply quiet_opened; try exact Hc; try exact K; try exact Ps; try reflexivity; [rewrite Ha; cbn; lia|].
  cbn [fc_run]. unfold fc_cryptsign, farg. cbn [fArgs fLabel fArmour cfg_of]. rewrite Ha. cbn [nth]. rewrite w_read_plain by assumption. cbn [world1 wFs]. rewrite Fp. cbn [wRng].
  unfold ks_encrypt_sign_to. rewrite (holds_pair_valid s1 da sda) by assumption. rewrite Lk, Pk. cbn [obind negb orb].
  rewrite (knows_has s1 (lLabel l) db sdb R Kn), (knows_public s1 (lLabel l) db sdb R Kn). cbn [negb obind].
  change (kPub (keypair db sdb)) with (Some (PubKey (Some (box_pub db)) (Some (ed_pub sdb)))) in *. cbv beta iota. change (wRng (world1 w)) with (wRng w). rewrite E. cbn [lift then_ fst snd].
  match goal with |- context [w_write ?x q _] => change x with (set_rng (world1 w) g') end. fold text. rewrite Ew. reflexivity.
Qed.

(** *** Choosing *)
Lemma fcr_never_chosen l a : chosen l <> Some (FDecryptSigned, a).
Proof.
  unfold chosen. repeat match goal with |- (if ?b then _ else _) <> _ => destruct b; try discriminate end. all: try (destruct (lUntrusted l); discriminate).
Qed.
Lemma fcr_signcrypt_armoured l a : chosen l = Some (FCryptSign, a) -> a = true.
Proof.
  unfold chosen. repeat match goal with |- (if ?b then _ else _) = _ -> _ => destruct b; try discriminate; try congruence end. all: try (destruct (lUntrusted l); discriminate).
Qed.
(** Exporting. *)
Lemma fcr_exporting f o a l w p rest s cert : key_file (wFs w) (lPath l) s -> chosen l = Some (FExportSelf, a) -> lArgs l = p :: rest -> plain_path p -> disk_ok w ->
  ksExport s = Some cert -> exists w', fc_main f o l w = Done RNone w' /\ wFs w' = <[p := cert]> (wFs w) /\ wPw w' = wPw w.
Proof.
  intros K Hc Ha Pp D Ex. destruct (write_done (tick (tick w)) p cert Pp D) as (w' & Ew & F1 & F2 & F3). exists w'. split; [|split; [exact F1|exact F3]].
  eapply quiet_locked; try exact Hc; try exact K; try reflexivity; [rewrite Ha; cbn; lia|]. cbn [fc_run]. unfold fc_exportself, farg. cbn [fArgs cfg_of]. rewrite Ha. cbn [nth].
  rewrite Ex. cbn [put_out]. rewrite Ew. reflexivity.
Qed.
End WithCrypto.

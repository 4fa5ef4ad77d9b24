(** Lemmas about the model of common/auth. *)
From Verif Require Export SpecAuth PublicFacts TextFacts.
Local Open Scope Z_scope.

(** ** Parsing of TLV configurations *)
Lemma decode_bytes_field k rest :
  k <> [] -> zlen k + zlen rest < 2 ^ 31 ->
  tlv_decode (Slice (rec_of (VBytes k) ++ rest) []) TBytes = Ret (DOk (Some (VBytes k)) (Slice rest [])).
Proof.
  intros Hk Hl. assert (fits (2 ^ 31) (VBytes k)) as F by (cbn; pose proof (zlen_nonneg rest); lia).
  apply (decode_record (VBytes k)).
  - apply rec_of_wire. apply fits_weaken. exact F.
  - exact F.
  - unfold nonempty_value. congruence.
  - rewrite zlen_app. replace (zlen (rec_of (VBytes k))) with (5 + zlen k) by (unfold zlen; rewrite length_rec_bytes; lia). lia.
Qed.
Lemma decode_int_field t z rest :
  in_range t z -> zlen rest < 2 ^ 31 - 8 ->
  tlv_decode (Slice (rec_of (VInt t z) ++ rest) []) (TInt t) = Ret (DOk (Some (VInt t z)) (Slice rest [])).
Proof.
  intros Hz Hl. apply (decode_record (VInt t z)).
  - apply rec_of_wire. exact Hz.
  - exact Hz.
  - discriminate.
  - unfold zlen in *. rewrite app_length, length_rec_of by exact Hz. destruct t; cbn [width] in *; lia.
Qed.
(** An empty byte record answers every Decode without moving. *)
Lemma decode_empty_field rest t :
  zlen rest < 2 ^ 31 ->
  tlv_decode (Slice (rec_of (VBytes []) ++ rest) []) t = Ret (DOk None (Slice (rec_of (VBytes []) ++ rest) [])).
Proof.
  intros H. apply decode_untouched. split; auto. exists rest, (zlen rest). split.
  - exists x03, [x00; x00; x00; x00]. rewrite rec_of_bytes. split; [reflexivity|]. repeat split; cbn; intros; lia.
  - split; [|apply zlen_nonneg]. split; [pose proof (zlen_nonneg rest); lia|]. exists 0. lia.
Qed.
Lemma decode_last_field k :
  zlen k < 2 ^ 31 -> exists v dec, tlv_decode (Slice (rec_of (VBytes k)) []) TBytes = Ret (DOk v dec) /\ stored v = k.
Proof.
  intros H. destruct (decide (k = [])) as [->|Hk].
  - rewrite <- (app_nil_r (rec_of _)). rewrite decode_empty_field by (vm_compute; congruence). eauto.
  - rewrite <- (app_nil_r (rec_of _)). rewrite decode_bytes_field; eauto. change (zlen (@nil byte)) with 0. lia.
Qed.

Definition totp_recs (c : totp) : bytes :=
  rec_of (VBytes (tKey c)) ++ rec_of (VInt U64 (tStart c)) ++ rec_of (VInt U64 (tStep c)) ++
  rec_of (VInt I32 (to_i 32 (tSize c))) ++ rec_of (VInt I8 (to_i 8 (tAlgo c))) ++ rec_of (VBytes (tProvider c)).
Lemma totp_bytes_eq c : totp_bytes c = totp_recs c.
Proof.
  unfold totp_bytes, totp_recs. rewrite !encode__rec by discriminate. cbn [app]. rewrite <- !app_assoc. reflexivity.
Qed.

Lemma zrec_bytes b : zlen (rec_of (VBytes b)) = 5 + zlen b.
Proof. unfold zlen. rewrite length_rec_bytes. lia. Qed.
Lemma zrec_int t z : in_range t z -> zlen (rec_of (VInt t z)) <= 13.
Proof. intros H. unfold zlen. rewrite length_rec_of by exact H. destruct t; cbn [width]; lia. Qed.

Lemma to_i_in_range8 z : in_range I8 (to_i 8 z). Proof. cbn [in_range]. pose proof (to_i_range 8 z). lia. Qed.
Lemma to_i_in_range32 z : in_range I32 (to_i 32 z). Proof. cbn [in_range]. pose proof (to_i_range 32 z). lia. Qed.

Lemma parse_totp_bytes c :
  typed_totp c -> tKey c <> [] ->
  parse_totp (totp_bytes c) =
  Ret (Some (Totp (tKey c) (tStart c) (tStep c) (to_i 32 (tSize c)) (to_u 64 (to_i 8 (tAlgo c))) (tProvider c))).
Proof.
  intros (H1 & H2 & H3 & H4 & H5) Hk. rewrite totp_bytes_eq. unfold totp_recs, parse_totp, new_decoder.
  pose proof (zlen_nonneg (tKey c)). pose proof (zlen_nonneg (tProvider c)).
  pose proof (to_i_in_range8 (tAlgo c)) as R8. pose proof (to_i_in_range32 (tSize c)) as R32.
  assert (in_range U64 (tStart c)) as Rs by exact H1. assert (in_range U64 (tStep c)) as Rt by exact H2.
  pose proof (zrec_int _ _ R8). pose proof (zrec_int _ _ R32). pose proof (zrec_int _ _ Rs). pose proof (zrec_int _ _ Rt).
  rewrite decode_bytes_field; [|assumption|rewrite !zlen_app, zrec_bytes; lia]. cbn [obind].
  rewrite decode_int_field; [|assumption|rewrite !zlen_app, zrec_bytes; lia]. cbn [obind].
  rewrite decode_int_field; [|assumption|rewrite !zlen_app, zrec_bytes; lia]. cbn [obind].
  rewrite decode_int_field; [|assumption|rewrite !zlen_app, zrec_bytes; lia]. cbn [obind].
  rewrite decode_int_field; [|assumption|rewrite zrec_bytes; lia]. cbn [obind].
  destruct (decode_last_field (tProvider c)) as (v & dec & -> & E); [lia|]. cbn [obind]. rewrite E. reflexivity.
Qed.
Lemma totp_roundtrip c :
  typed_totp c -> tKey c <> [] -> - 2 ^ 31 <= tSize c < 2 ^ 31 -> 0 <= tAlgo c < 2 ^ 7 ->
  parse_totp (totp_bytes c) = Ret (Some c).
Proof.
  intros T K S A. rewrite parse_totp_bytes by assumption. do 2 f_equal.
  rewrite (to_i_small 32) by lia. rewrite (to_i_small 8) by lia. unfold to_u. rewrite Z.mod_small by lia.
  destruct c; reflexivity.
Qed.
Lemma totp_empty_key c :
  typed_totp c -> tKey c = [] -> parse_totp (totp_bytes c) = Ret (Some (Totp [] 0 0 0 0 [])).
Proof.
  intros (H1 & H2 & H3 & H4 & H5) Hk. rewrite totp_bytes_eq. unfold totp_recs, parse_totp, new_decoder. rewrite Hk in *.
  pose proof (zlen_nonneg (tProvider c)). change (zlen (@nil byte)) with 0 in *.
  pose proof (to_i_in_range8 (tAlgo c)) as R8. pose proof (to_i_in_range32 (tSize c)) as R32.
  assert (in_range U64 (tStart c)) as Rs by exact H1. assert (in_range U64 (tStep c)) as Rt by exact H2.
  pose proof (zrec_int _ _ R8). pose proof (zrec_int _ _ R32). pose proof (zrec_int _ _ Rs). pose proof (zrec_int _ _ Rt).
  assert (zlen (rec_of (VInt U64 (tStart c)) ++ rec_of (VInt U64 (tStep c)) ++
    rec_of (VInt I32 (to_i 32 (tSize c))) ++ rec_of (VInt I8 (to_i 8 (tAlgo c))) ++ rec_of (VBytes (tProvider c))) < 2 ^ 31) as B
    by (rewrite !zlen_app, zrec_bytes; lia).
  do 6 (rewrite (decode_empty_field _ _ B); cbn [obind]). reflexivity.
Qed.

(** ** Code generation *)
Lemma land_127 p : 0 <= p -> Z.land p 127 = p mod 128.
Proof. intros. change 127 with (Z.ones 7). rewrite Z.land_ones by lia. reflexivity. Qed.
Lemma land_255 p : 0 <= p < 256 -> Z.land p 255 = p.
Proof. intros. change 255 with (Z.ones 8). rewrite Z.land_ones by lia. apply Z.mod_small. cbn. lia. Qed.
Lemma land_31 p : 0 <= p < 2 ^ 31 -> Z.land p 2147483647 = p.
Proof. intros. change 2147483647 with (Z.ones 31). rewrite Z.land_ones by lia. apply Z.mod_small. lia. Qed.
Lemma land_15 p : 0 <= p -> Z.land p 15 = p mod 16.
Proof. intros. change 15 with (Z.ones 4). rewrite Z.land_ones by lia. reflexivity. Qed.

Lemma split4 {A} (l : list A) : length l = 4%nat -> exists a b c d, l = [a; b; c; d].
Proof. destruct l as [|a [|b [|c [|d [|]]]]]; cbn; try discriminate. eauto. Qed.

Lemma truncate_spec s : length s = 20%nat ->
  exists lst pre p post, last s = Some lst /\ s = pre ++ p ++ post /\
    length pre = Z.to_nat (bz lst mod 16) /\ length p = 4%nat /\ truncate s = unbe p mod 2 ^ 31.
Proof.
  intros H. destruct (last s) as [lst|] eqn:El; [|apply last_None in El; subst; discriminate].
  set (o := Z.to_nat (bz lst mod 16)). pose proof (bz_range lst) as Rl.
  assert (o + 4 <= 20)%nat as Ho by (unfold o; lia).
  exists lst, (take o s), (take 4 (drop o s)), (drop 4 (drop o s)).
  split; auto. split; [rewrite !take_drop; reflexivity|]. split; [rewrite take_length; lia|].
  assert (length (take 4 (drop o s)) = 4%nat) as L4 by (rewrite take_length, drop_length; lia).
  split; auto. unfold truncate. rewrite El. change (default x00 (Some lst)) with lst. rewrite land_15 by lia. fold o.
  destruct (split4 _ L4) as (a & b & c & d & E). rewrite E. cbn [nth].
  pose proof (bz_range a). pose proof (bz_range b). pose proof (bz_range c). pose proof (bz_range d).
  rewrite land_127, !land_255 by lia. rewrite !Z.shiftl_mul_pow2 by lia.
  unfold unbe. cbn [unbe_acc]. change (2 ^ 24) with 16777216. change (2 ^ 16) with 65536. change (2 ^ 8) with 256.
  assert (forall z, 0 <= z < 2147483648 -> to_i 32 z = z) as T by (intros; apply to_i_small; [lia|]; change (2 ^ (32 - 1)) with 2147483648; lia).
  rewrite (T (bz a mod 128 * 16777216)), (T (bz b * 65536)), (T (bz c * 256)) by lia.
  rewrite (T (bz a mod 128 * 16777216 + bz b * 65536)) by lia.
  rewrite (T (bz a mod 128 * 16777216 + bz b * 65536 + bz c * 256)) by lia.
  rewrite (T (bz a mod 128 * 16777216 + bz b * 65536 + bz c * 256 + bz d)) by lia.
  rewrite land_31 by lia. change (2 ^ 31) with 2147483648. lia.
Qed.

Section WithCrypto.
Context `{L : CryptoLaws}.

Lemma hotp_value_unique key T n n' : hotp_value key T n -> hotp_value key T n' -> n = n'.
Proof.
  intros (hs & l & pre & p & post & -> & El & E & Hp & L4 & ->) (hs' & l' & pre' & p' & post' & -> & El' & E' & Hp' & L4' & ->).
  rewrite El in El'. injection El' as <-. rewrite E in E'.
  apply app_inj_1 in E' as [_ E']; [|congruence]. apply app_inj_1 in E' as [-> _]; [|congruence]. reflexivity.
Qed.
Lemma hotp_unique key T d s s' : hotp key T d s -> hotp key T d s' -> s = s'.
Proof.
  intros (H1 & H2 & n & H3 & H4) (H1' & H2' & n' & H3' & H4').
  pose proof (hotp_value_unique _ _ _ _ H3 H3') as <-. apply dval_inj; auto; congruence.
Qed.

Lemma oath_digits_pow k : (k <= 10)%nat -> nth k oath_digits 0 = 10 ^ Z.of_nat k.
Proof. intros H. do 11 (destruct k as [|k]; [reflexivity|]). lia. Qed.

Lemma hotp_value_exists key T : exists n, hotp_value key T n /\ truncate (hmac_sha1 key (be 8 T)) = n.
Proof.
  destruct (truncate_spec (hmac_sha1 key (be 8 T))) as (lst & pre & p & post & H1 & H2 & H3 & H4 & H5); [apply hmac_sha1_length|].
  exists (unbe p mod 2 ^ 31). split; auto. exists (hmac_sha1 key (be 8 T)), lst, pre, p, post. split_and!; auto.
Qed.

Lemma otp_at_code c now :
  tStep c <> 0 -> 1 <= tSize c <= 10 -> tAlgo c = SHA1 ->
  exists s, otp_at c now = Ret (Some s) /\ totp_code c now s.
Proof.
  intros Hs Hz Ha. unfold otp_at, to_u. rewrite decide_False by assumption.
  rewrite decide_True by (change (zlen oath_digits) with 11; lia). rewrite decide_True by assumption.
  rewrite oath_digits_pow by lia. eexists. split; [reflexivity|].
  unfold totp_code, totp_counter.
  destruct (hotp_value_exists (tKey c) ((now - tStart c) mod 2 ^ 64 / tStep c)) as (n & Hn & ->).
  destruct (Z.to_nat (tSize c)) as [|k] eqn:Ek; [lia|].
  destruct (pad0_spec k (n mod 10 ^ Z.of_nat (S k))) as (P1 & P2 & P3).
  { apply Z.mod_pos_bound. apply Z.pow_pos_nonneg; lia. }
  split; auto. split; auto. eauto.
Qed.
Lemma otp_at_panics c now : otp_at c now = Panic <-> tStep c = 0 \/ ~ (0 <= tSize c <= 10).
Proof.
  unfold otp_at. change (zlen oath_digits) with 11.
  destruct (decide (tStep c = 0)); [split; auto|].
  destruct (decide (0 <= tSize c < 11)) as [H|H].
  - destruct (decide (tAlgo c = SHA1)); (split; [discriminate|]); intros [?|?]; [contradiction|lia|contradiction|lia].
  - split; auto. intros _. right. lia.
Qed.
Lemma otp_at_error c now : otp_at c now = Ret None <-> tStep c <> 0 /\ 0 <= tSize c <= 10 /\ tAlgo c <> 3.
Proof.
  unfold otp_at. change (zlen oath_digits) with 11. unfold SHA1.
  destruct (decide (tStep c = 0)); [split; [discriminate|tauto]|].
  destruct (decide (0 <= tSize c < 11)) as [H|H].
  - destruct (decide (tAlgo c = 3)); (split; [try discriminate|]); try tauto. intros _. split_and!; auto; lia.
  - split; [discriminate|]. lia.
Qed.
Lemma otp_at_zero c now : tStep c <> 0 -> tSize c = 0 -> tAlgo c = 3 -> otp_at c now = Ret (Some (bs "0")).
Proof.
  intros H1 H2 H3. unfold otp_at. rewrite decide_False by assumption. rewrite H2, H3. cbn [oath_digits].
  rewrite decide_True by (vm_compute; split; congruence). rewrite decide_True by reflexivity.
  change (nth (Z.to_nat 0) [1; 10; 100; 1000; 10000; 100000; 1000000; 10000000; 100000000; 1000000000; 10000000000] 0) with 1.
  rewrite Z.mod_1_r. reflexivity.
Qed.

(** ** ValidateTOTP *)
Lemma totp_counter_prev c now : totp_counter c (to_u 64 (now - tStep c)) = totp_counter c (now - tStep c).
Proof. unfold totp_counter, to_u. rewrite Zminus_mod_idemp_l. reflexivity. Qed.
Lemma totp_counter_step c now :
  tStart c + tStep c <= now < 2 ^ 64 -> 0 < tStep c -> 0 <= tStart c ->
  totp_counter c (now - tStep c) = totp_counter c now - 1.
Proof.
  intros H Hs H0. unfold totp_counter. rewrite !Z.mod_small by lia.
  replace (now - tStep c - tStart c) with (now - tStart c + (-1) * tStep c) by lia.
  rewrite Z.div_add by lia. lia.
Qed.
Lemma totp_code_dec c now otp s : otp_at c now = Ret (Some s) -> totp_code c now s -> (totp_code c now otp <-> otp = s).
Proof. intros _ H. split; [intros H'; eapply hotp_unique; eassumption|intros ->; exact H]. Qed.

Lemma usable_parse c : usable_totp c -> parse_totp (totp_bytes c) = Ret (Some c).
Proof.
  intros (T & K & S & Z & Al). apply totp_roundtrip; auto; lia.
Qed.

Lemma validate_totp_usable c lbl lst otp now g :
  usable_totp c ->
  let a := Auth TypeTOTP lbl lst (totp_bytes c) in
  let ok := otp <> lst /\ (totp_code c now otp \/ totp_code c (now - tStep c) otp) in
  (ok -> validate_totp now (Some a) otp g = Ret (VRes (Some (Auth TypeTOTP lbl otp (totp_bytes c))) true None g)) /\
  (~ ok -> validate_totp now (Some a) otp g = Ret (VRes (Some a) false (Some EValidationFail) g)).
Proof.
  intros U a ok. pose proof U as (T & K & S & Z & Al).
  destruct (otp_at_code c now) as (s1 & E1 & C1); auto.
  destruct (otp_at_code c (to_u 64 (now - tStep c))) as (s2 & E2 & C2); auto.
  assert (totp_code c (now - tStep c) s2) as C2' by (unfold totp_code in *; rewrite totp_counter_prev in C2; exact C2).
  assert (totp_code c now otp <-> otp = s1) as D1 by (eapply totp_code_dec; eauto).
  assert (totp_code c (now - tStep c) otp <-> otp = s2) as D2.
  { split; [intros H'; eapply hotp_unique; eassumption|intros ->; exact C2']. }
  unfold ok. rewrite D1, D2. unfold validate_totp, a. cbn [aType aLast aSecret aLabel].
  rewrite decide_False by congruence.
  destruct (decide (lst = otp)) as [->|Hne]; [split; [intros [H _]; congruence|reflexivity]|].
  rewrite usable_parse by assumption. cbn [obind]. rewrite E1. cbn [obind].
  destruct (decide (s1 = otp)) as [->|N1]; cbn [obind]; rewrite E2; cbn [obind].
  - destruct (decide (s2 = otp)); cbn; (split; [reflexivity|]); intros H; exfalso; apply H; auto.
  - destruct (decide (s2 = otp)) as [->|N2]; cbn; split; try reflexivity.
    + intros H; exfalso; apply H; auto.
    + intros [_ [?|?]]; congruence.
Qed.

Lemma validate_totp_empty_key c lbl lst otp now g :
  typed_totp c -> tKey c = [] -> otp <> lst ->
  validate_totp now (Some (Auth TypeTOTP lbl lst (totp_bytes c))) otp g = Panic.
Proof.
  intros T K H. unfold validate_totp. cbn [aType aLast aSecret].
  rewrite decide_False by congruence. rewrite decide_False by congruence.
  rewrite totp_empty_key by assumption. reflexivity.
Qed.

Lemma import_google_ok prov key now :
  zlen key + zlen prov < 2 ^ 30 ->
  exists s, totp_code (Totp key 0 30 6 3 prov) now s /\
    import_google prov key now = Ret (Auth (bs "TOTP") [] s (totp_bytes (Totp key 0 30 6 3 prov))).
Proof.
  intros H. unfold import_google, google_totp.
  destruct (otp_at_code (Totp key 0 30 6 SHA1 prov) now) as (s & E & Hc); [cbn [tStep]; lia|cbn [tSize]; lia|reflexivity|].
  exists s. split; [exact Hc|]. rewrite E. reflexivity.
Qed.

(** ** Sessions *)
Lemma rand_cases n g :
  (exists p g', rand n g = (Some p, g') /\ length p = n /\ delivers g p g') \/
  (exists g', rand n g = (None, g') /\ starved g n).
Proof.
  destruct (rand n g) as [[p|] g'] eqn:E.
  - left. exists p, g'. split; auto. apply read_full_some. exact E.
  - right. exists g'. split; auto. apply read_full_none. eauto.
Qed.

Lemma validate_session_exact au otp g :
  aType au = TypeSession ->
  (exists e g', validate_session (Some au) otp g = Ret (VRes (Some au) false (Some e) g') /\
     ~ (exists ch, length ch = 32%nat /\ hex_decode (aLast au) = Some ch /\
          hex_decode otp = Some (response (aSecret au) ch) /\ ~ starved g 32)) \/
  (exists ch next g', validate_session (Some au) otp g =
       Ret (VRes (Some (Auth (aType au) (aLabel au) (hex_encode next) (aSecret au))) true None g') /\
     length ch = 32%nat /\ hex_decode (aLast au) = Some ch /\
     hex_decode otp = Some (response (aSecret au) ch) /\ length next = 32%nat /\ delivers g next g').
Proof.
  intros T. unfold validate_session, response. rewrite decide_False by (intros H; contradiction).
  destruct (hex_decode otp) as [ob|] eqn:Eo.
  2:{ left. do 2 eexists. split; [reflexivity|]. intros (ch & _ & _ & H & _). discriminate. }
  destruct (decide (length ob <> 2 * sessionLength)%nat) as [Hl|Hl].
  { left. do 2 eexists. split; [reflexivity|]. intros (ch & H1 & H2 & [= ->] & _).
    apply Hl. rewrite app_length, hmac_sha256_length, H1. reflexivity. }
  destruct (hex_decode (aLast au)) as [lb|] eqn:El.
  2:{ left. do 2 eexists. split; [reflexivity|]. intros (ch & _ & H & _). discriminate. }
  unfold sessionLength in *. apply dec_stable in Hl.
  destruct (decide (take 32 ob <> lb)) as [Ht|Ht].
  { left. do 2 eexists. split; [reflexivity|]. intros (ch & H1 & [= ->] & [= ->] & _).
    apply Ht. apply take_app_alt. auto. }
  apply dec_stable in Ht.
  destruct (decide (drop 32 ob <> hmac_sha256 (aSecret au) lb)) as [Hd|Hd].
  { left. do 2 eexists. split; [reflexivity|]. intros (ch & H1 & [= ->] & [= ->] & _).
    apply Hd. apply drop_app_alt. auto. }
  apply dec_stable in Hd.
  assert (length lb = 32%nat) as Hlb by (rewrite <- Ht, take_length; lia).
  assert (ob = lb ++ hmac_sha256 (aSecret au) lb) as -> by (rewrite <- (take_drop 32 ob); congruence).
  destruct (rand_cases 32 g) as [(p & g' & -> & Hp & D)|(g' & -> & S)].
  - right. exists lb, p, g'. split_and!; auto.
  - left. do 2 eexists. split; [reflexivity|]. intros (ch & _ & _ & _ & H). contradiction.
Qed.

Lemma not_starved_delivers g p g' : delivers g p g' -> ~ starved g (length p).
Proof. intros D S. exact (S p g' eq_refl D). Qed.

Lemma validate_session_accepts au otp g au' g' :
  aType au = TypeSession ->
  validate_session (Some au) otp g = Ret (VRes (Some au') true None g') <->
  exists ch next, length ch = 32%nat /\ hex_decode (aLast au) = Some ch /\
    hex_decode otp = Some (response (aSecret au) ch) /\ length next = 32%nat /\ delivers g next g' /\
    au' = Auth (aType au) (aLabel au) (hex_encode next) (aSecret au).
Proof.
  intros T. destruct (validate_session_exact au otp g T) as [(e & h & -> & N)|(ch & next & h & -> & H1 & H2 & H3 & H4 & H5)].
  - split; [discriminate|]. intros (ch & next & H1 & H2 & H3 & H4 & H5 & _). exfalso. apply N. exists ch. split_and!; auto.
    rewrite <- H4. eapply not_starved_delivers. eassumption.
  - split.
    + intros [= <- <-]. exists ch, next. split_and!; auto.
    + intros (ch' & next' & _ & _ & _ & H4' & H5' & ->). unfold delivers in *.
      rewrite H5 in H5'. apply app_inj_1 in H5' as [E ->]; [|rewrite !map_length; congruence].
      apply (inj (map Some)) in E. subst. reflexivity.
Qed.

Lemma session_otp_spec shared next :
  fst (session_otp shared next) = hex_encode (response shared (vis next)) /\
  vis (snd (session_otp shared next)) = vis next /\
  ((length (hid next) < 32)%nat -> snd (session_otp shared next) = next) /\
  ((32 <= length (hid next))%nat ->
     hid (snd (session_otp shared next)) = hmac_sha256 shared (vis next) ++ drop 32 (hid next)).
Proof.
  unfold session_otp, response. rewrite hmac_sha256_length. cbn [fst snd]. case_decide; cbn [vis hid]; split_and!; auto; lia.
Qed.

Lemma session_client au ch g next g' hidn :
  aType au = TypeSession -> length ch = 32%nat -> hex_decode (aLast au) = Some ch ->
  length next = 32%nat -> delivers g next g' ->
  validate_session (Some au) (fst (session_otp (aSecret au) (Slice ch hidn))) g =
  Ret (VRes (Some (Auth (aType au) (aLabel au) (hex_encode next) (aSecret au))) true None g').
Proof.
  intros T H1 H2 H3 H4. apply validate_session_accepts; auto. exists ch, next. split_and!; auto.
  destruct (session_otp_spec (aSecret au) (Slice ch hidn)) as [-> _]. cbn [vis]. apply hex_roundtrip.
Qed.

Lemma marshal_pub_of d s e v :
  length e = 32%nat -> length v = 32%nat ->
  kPub (full_priv d s e v) = Some (PubKey (Some e) (Some v)) /\ unmarshal_public (e ++ v) = Some (PubKey (Some e) (Some v)).
Proof. intros He Hv. split; [reflexivity|]. apply unmarshal_public_exact. exists e, v. auto. Qed.

Lemma key_session_agree da sa db sb pk pb :
  length da = 32%nat -> length db = 32%nat -> length sa = 32%nat ->
  marshal_private (Some (keypair da sa)) = Ret (Some pk) ->
  marshal_public (kPub (keypair db sb)) = Ret (Some pb) ->
  exists k, key_session pk pb = Ret (Some k) /\
    key_exchange (Some (keypair db sb)) (kPub (keypair da sa)) = Ret k /\ length k = 32%nat.
Proof.
  intros Ha Hb Hsa Hpk Hpb. unfold key_session.
  destruct (marshal_private_roundtrip (keypair da sa)) as (b & E & _ & R).
  { apply keypair_valid. }
  { repeat split; cbn; rewrite ?app_length, ?ed_pub_length, ?box_pub_length; lia. }
  rewrite Hpk in E. injection E as <-. specialize (R []). rewrite app_nil_r in R. rewrite R by (change (zlen (@nil byte)) with 0; lia).
  cbn [obind]. cbn in Hpb. injection Hpb as <-.
  destruct (marshal_pub_of db (sb ++ ed_pub sb) (box_pub db) (ed_pub sb)) as [_ ->]; [apply box_pub_length|apply ed_pub_length|].
  destruct (key_exchange_agree da sa db sb Ha Hb) as (k & K1 & K2 & K3).
  change (Some (PubKey (Some (box_pub db)) (Some (ed_pub sb)))) with (kPub (keypair db sb)). rewrite K1. cbn [obind].
  exists k. split_and!; auto.
Qed.

Lemma new_session_never pub g r g' : new_session pub g = Ret (r, g') -> r = None.
Proof.
  unfold new_session. destruct (rand_cases sessionLength g) as [(p & g1 & -> & _)|(g1 & -> & _)]; [|intros [= <- _]; reflexivity].
  destruct (gen_key_exact g1) as [H1 H2].
  destruct (delivers_or_starved g1 64) as [(q & h & Hq & D)|S].
  - rewrite H2; [discriminate|]. rewrite <- Hq. eapply not_starved_delivers. eassumption.
  - destruct (H1 S) as [h ->]. cbn. intros [= <- _]. reflexivity.
Qed.
Lemma new_session_panics pub g : ~ starved g 96 -> new_session pub g = Panic.
Proof.
  intros N. destruct (not_starved g 96 N) as (q & h & Hq & D). unfold new_session.
  rewrite (rand_delivers sessionLength g (take 32 q) (map Some (drop 32 q) ++ h)).
  - destruct (gen_key_exact (map Some (drop 32 q) ++ h)) as [_ ->]; [reflexivity|].
    replace 64%nat with (length (drop 32 q)) by (rewrite drop_length; lia). eapply not_starved_delivers. reflexivity.
  - rewrite take_length. unfold sessionLength. lia.
  - unfold delivers in *. rewrite app_assoc, <- map_app, take_drop. exact D.
Qed.
End WithCrypto.

(** ** YubiKeys *)
Lemma token_counter_ctr t :
  token_counter t = (bz (tk_ctr_lo t) + 256 * bz (tk_ctr_hi t)) mod 2 ^ 15.
Proof.
  unfold token_counter, token_ctr, to_u. pose proof (bz_range (tk_ctr_lo t)). pose proof (bz_range (tk_ctr_hi t)).
  rewrite Z.shiftl_mul_pow2 by lia.
  replace (bz (tk_use t) * 2 ^ 16) with (bz (tk_use t) * 2 ^ 8 * 2 ^ 8) by lia. rewrite Z_mod_mult.
  change 32767 with (Z.ones 15). rewrite Z.land_ones by lia.
  rewrite Z.mod_0_l by lia. rewrite Z.add_0_l. rewrite Z.mod_mod by lia. apply Z.mod_small. lia.
Qed.
Lemma token_counter_range t : 0 <= token_counter t < 2 ^ 15.
Proof. rewrite token_counter_ctr. apply Z.mod_pos_bound. lia. Qed.

Definition yk_recs (c : ykconfig) : bytes :=
  rec_of (VBytes (yKey c)) ++ rec_of (VInt U32 (yCounter c)) ++ rec_of (VBytes (yPublic c)).
Lemma yk_bytes_eq c : yk_bytes c = yk_recs c.
Proof.
  unfold yk_bytes, yk_recs. rewrite !encode__rec by discriminate. cbn [app]. rewrite <- !app_assoc. reflexivity.
Qed.
Lemma parse_yk_bytes c : typed_yk c -> parse_yk (yk_bytes c) = Ret (Some c).
Proof.
  intros (H1 & H2 & H3). rewrite yk_bytes_eq. unfold yk_recs, parse_yk, new_decoder.
  pose proof (zlen_nonneg (yPublic c)). assert (in_range U32 (yCounter c)) as R by exact H2.
  pose proof (zrec_int _ _ R). assert (zlen (yKey c) = 16) by (unfold zlen; lia).
  rewrite decode_bytes_field; [|intros E; rewrite E in H1; discriminate|rewrite !zlen_app, zrec_bytes; lia]. cbn [obind stored].
  rewrite decide_False by (intros N; apply N; assumption).
  rewrite decode_int_field; [|assumption|rewrite zrec_bytes; lia]. cbn [obind].
  destruct (decode_last_field (yPublic c)) as (v & dec & -> & E); [lia|]. cbn [obind]. rewrite E. destruct c; reflexivity.
Qed.
Lemma parse_yk_key_size b c : parse_yk b = Ret (Some c) -> length (yKey c) = 16%nat.
Proof.
  unfold parse_yk. destruct (tlv_decode (new_decoder (Slice b [])) TBytes) as [[?|k d]|]; cbn [obind]; try discriminate.
  destruct (decide (length (stored k) <> 16%nat)) as [?|H]; [discriminate|]. apply dec_stable in H.
  destruct (tlv_decode d (TInt U32)) as [[?|? d']|]; cbn [obind]; try discriminate.
  destruct (tlv_decode d' TBytes) as [[?|? ?]|]; cbn [obind]; try discriminate. intros [= <-]. exact H.
Qed.
Lemma parse_yk_wrong_key c :
  length (yKey c) <> 16%nat -> 0 <= yCounter c < 2 ^ 32 -> zlen (yKey c) + zlen (yPublic c) < 2 ^ 30 ->
  parse_yk (yk_bytes c) = Ret None.
Proof.
  intros H1 H2 H3. pose proof (zlen_nonneg (yKey c)). pose proof (zlen_nonneg (yPublic c)). rewrite yk_bytes_eq. unfold yk_recs, parse_yk, new_decoder.
  assert (in_range U32 (yCounter c)) as R by exact H2. pose proof (zrec_int _ _ R).
  destruct (decide (yKey c = [])) as [E|E].
  - rewrite E. rewrite decode_empty_field by (rewrite zlen_app, zrec_bytes; pose proof (zlen_nonneg (yPublic c)); lia). reflexivity.
  - rewrite decode_bytes_field; [|assumption|rewrite !zlen_app, zrec_bytes; lia]. cbn [obind stored].
    rewrite decide_True by assumption. reflexivity.
Qed.

Section WithLibs.
Context `{L : CryptoLaws} `{A : AuthLib}.

Lemma validate_yubikey_exact c lbl lst otp g :
  typed_yk c ->
  let a := Auth TypeYubiKey lbl lst (yk_bytes c) in
  (exists e, validate_yubikey (Some a) otp g = Ret (VRes (Some a) false (Some e) g) /\
     ~ (otp <> lst /\ exists ctr, yk_otp (yKey c) (yPublic c) otp ctr /\ yCounter c <= ctr)) \/
  (exists ctr, validate_yubikey (Some a) otp g =
       Ret (VRes (Some (Auth TypeYubiKey lbl otp (yk_bytes (YK (yKey c) ctr (yPublic c))))) true None g) /\
     otp <> lst /\ yk_otp (yKey c) (yPublic c) otp ctr /\ yCounter c <= ctr < 2 ^ 15).
Proof.
  intros T a. unfold validate_yubikey, a. cbn [aType aLast aSecret aLabel]. rewrite decide_False by congruence.
  destruct (decide (lst = otp)) as [->|N]. { left. eexists. split; [reflexivity|]. tauto. }
  rewrite parse_yk_bytes by assumption. cbn [obind]. unfold yk_otp.
  destruct (yk_parse otp) as [[pub o]|] eqn:Ep.
  2:{ left. eexists. split; [reflexivity|]. intros (_ & ctr & (o & t & E & _) & _). discriminate. }
  destruct (decide (pub <> yPublic c)) as [Hp|Hp].
  { left. eexists. split; [reflexivity|]. intros (_ & ctr & (o' & t & [= E] & _) & _). contradiction. }
  apply dec_stable in Hp. rewrite copy_into_id by apply T.
  destruct (yk_token (yKey c) o) as [t|] eqn:Et.
  2:{ left. eexists. split; [reflexivity|]. intros (_ & ctr & (o' & t & [= _ <-] & E & _) & _). congruence. }
  destruct (decide (token_counter t < yCounter c)) as [Hc|Hc].
  - left. eexists. split; [reflexivity|]. intros (_ & ctr & (o' & t' & [= _ <-] & E & ->) & Hge).
    rewrite Et in E. injection E as <-. rewrite token_counter_ctr in Hc. lia.
  - right. exists (token_counter t). split; [reflexivity|]. split; [congruence|]. split.
    + exists o, t. split; [congruence|]. split; auto. apply token_counter_ctr.
    + pose proof (token_counter_range t). lia.
Qed.

Lemma yk_otp_fun key pub otp c c' : yk_otp key pub otp c -> yk_otp key pub otp c' -> c = c'.
Proof. intros (o & t & E1 & E2 & ->) (o' & t' & E1' & E2' & ->). congruence. Qed.
Lemma yk_otp_range key pub otp c : yk_otp key pub otp c -> 0 <= c < 2 ^ 15.
Proof. intros (o & t & _ & _ & ->). apply Z.mod_pos_bound. lia. Qed.

Lemma validate_yubikey_accepts c lbl lst otp g ctr :
  typed_yk c -> otp <> lst -> yk_otp (yKey c) (yPublic c) otp ctr -> yCounter c <= ctr ->
  validate_yubikey (Some (Auth TypeYubiKey lbl lst (yk_bytes c))) otp g =
  Ret (VRes (Some (Auth TypeYubiKey lbl otp (yk_bytes (YK (yKey c) ctr (yPublic c))))) true None g).
Proof.
  intros T N O H. destruct (validate_yubikey_exact c lbl lst otp g T) as [(e & _ & F)|(ctr' & -> & _ & O' & _)].
  - exfalso. apply F. eauto.
  - rewrite (yk_otp_fun _ _ _ _ _ O' O). reflexivity.
Qed.

Lemma new_yubikey_exact key otp :
  (forall a key', new_yubikey key otp = (Some a, key') ->
     key' = replicate (length key) x00 /\ aType a = TypeYubiKey /\ aLast a = otp /\
     exists pub ctr, yk_otp (copy_into 16 key) pub otp ctr /\ aSecret a = yk_bytes (YK key ctr pub)) /\
  (forall key', new_yubikey key otp = (None, key') ->
     key' = key /\ forall pub ctr, ~ yk_otp (copy_into 16 key) pub otp ctr).
Proof.
  unfold new_yubikey, yk_otp. destruct (yk_parse otp) as [[pub o]|] eqn:Ep.
  2:{ split; [discriminate|]. intros ? [= <-]. split; auto. intros pub ctr (o & t & E & _). discriminate. }
  destruct (yk_token (copy_into 16 key) o) as [t|] eqn:Et.
  - split; [|discriminate]. intros a k' [= <- <-]. cbn [aType aLast aSecret]. rewrite zero_zeros. split_and!; auto.
    exists pub, (token_counter t). split; auto. exists o, t. split_and!; auto. apply token_counter_ctr.
  - split; [discriminate|]. intros ? [= <-]. split; auto. intros pub' ctr (o' & t & [= -> ->] & E & _). congruence.
Qed.

(** ** Discipline of Validate *)
Lemma totp_discipline now au otp g r :
  validate_totp now (Some au) otp g = Ret r ->
  v_rng r = g /\
  (v_err r <> None -> v_update r = false /\ v_auth r = Some au) /\
  (v_err r = None -> v_update r = true /\ otp <> aLast au /\ v_auth r = Some (Auth (aType au) (aLabel au) otp (aSecret au))).
Proof.
  unfold validate_totp. case_decide as T; [intros [= <-]; cbn; split_and!; auto; discriminate|].
  case_decide as E; [intros [= <-]; cbn; split_and!; auto; discriminate|].
  destruct (parse_totp (aSecret au)) as [[c|]|]; cbn [obind]; try discriminate.
  2:{ intros [= <-]; cbn; split_and!; auto; discriminate. }
  destruct (otp_at c now) as [o1|]; cbn [obind]; try discriminate.
  destruct o1 as [s1|]; [destruct (decide (s1 = otp))|]; cbn [obind];
    (destruct (otp_at c (to_u 64 (now - tStep c))) as [o2|]; cbn [obind]; try discriminate);
    (destruct o2 as [s2|]; [destruct (decide (s2 = otp))|]; cbn [obind fst snd aType aLabel aSecret]);
    intros [= <-]; cbn; split_and!; auto; try discriminate; congruence.
Qed.
Lemma yubikey_discipline au otp g r :
  validate_yubikey (Some au) otp g = Ret r ->
  v_rng r = g /\
  (v_err r <> None -> v_update r = false /\ v_auth r = Some au) /\
  (v_err r = None -> v_update r = true /\ otp <> aLast au /\
     exists s, v_auth r = Some (Auth (aType au) (aLabel au) otp s)).
Proof.
  unfold validate_yubikey. case_decide as T; [intros [= <-]; cbn; split_and!; auto; discriminate|].
  case_decide as E; [intros [= <-]; cbn; split_and!; auto; discriminate|].
  destruct (parse_yk (aSecret au)) as [[c|]|]; cbn [obind]; try discriminate.
  2:{ intros [= <-]; cbn; split_and!; auto; discriminate. }
  destruct (yk_parse otp) as [[pub o]|]; [|intros [= <-]; cbn; split_and!; auto; discriminate].
  case_decide; [intros [= <-]; cbn; split_and!; auto; discriminate|].
  destruct (yk_token _ o) as [t|]; [|intros [= <-]; cbn; split_and!; auto; discriminate].
  case_decide; intros [= <-]; cbn; split_and!; auto; try discriminate; try congruence. eauto.
Qed.
Lemma session_discipline au otp g r :
  validate_session (Some au) otp g = Ret r ->
  (v_err r <> None -> v_update r = false /\ v_auth r = Some au) /\
  (v_err r = None -> v_update r = true /\
     exists next, length next = 32%nat /\ delivers g next (v_rng r) /\
       v_auth r = Some (Auth (aType au) (aLabel au) (hex_encode next) (aSecret au))).
Proof.
  intros H. destruct (decide (aType au = TypeSession)) as [T|T].
  - destruct (validate_session_exact au otp g T) as [(e & h & E & _)|(ch & next & h & E & _ & _ & _ & H4 & H5)];
      rewrite E in H; injection H as <-; cbn; split_and!; auto; try discriminate; try congruence. eauto.
  - unfold validate_session in H. rewrite decide_True in H by assumption. injection H as <-.
    cbn; split_and!; auto; discriminate.
Qed.
Lemma password_discipline au pw g :
  exists e, validate_password (Some au) pw g = Ret (VRes (Some au) false e g).
Proof.
  unfold validate_password. case_decide; [eauto|]. destruct (bcrypt_cmp _ _); eauto.
Qed.

Lemma validate_dispatch now au pw g :
  validate now (Some au) pw g =
  (if decide (aType au = TypeYubiKey) then validate_yubikey (Some au) pw g
   else if decide (aType au = TypeTOTP) then validate_totp now (Some au) pw g
   else if decide (aType au = TypeSession) then validate_session (Some au) pw g
   else if decide (aType au = TypePassword) then validate_password (Some au) pw g
   else Ret (VRes (Some au) false (Some EInvalidAuthenticator) g)).
Proof. reflexivity. Qed.

Lemma validate_discipline now a pw g r :
  validate now a pw g = Ret r ->
  (v_err r <> None -> v_update r = false /\ v_auth r = a) /\
  (v_update r = true -> v_err r = None) /\
  (v_update r = true -> exists au au', a = Some au /\ v_auth r = Some au' /\
     aType au' = aType au /\ aLabel au' = aLabel au /\
     ((aType au = bs "TOTP" /\ aSecret au' = aSecret au /\ aLast au' = pw /\ aLast au <> pw) \/
      (aType au = bs "yubikey" /\ aLast au' = pw /\ aLast au <> pw) \/
      (aType au = bs "session" /\ aSecret au' = aSecret au /\
       exists next, length next = 32%nat /\ delivers g next (v_rng r) /\ aLast au' = hex_encode next))) /\
  (v_update r = false -> v_auth r = a).
Proof.
  destruct a as [au|].
  2:{ cbn. intros [= <-]. cbn. split_and!; auto; discriminate. }
  rewrite validate_dispatch. intros H.
  destruct (decide (aType au = TypeYubiKey)) as [T|T].
  { apply yubikey_discipline in H as (_ & H1 & H2). destruct (v_err r) as [e|] eqn:Ee.
    - destruct H1 as [U E]; [discriminate|]. rewrite U. split_and!; auto; discriminate.
    - destruct H2 as (U & N & s & E); auto. rewrite U, E. split_and!; auto; try congruence.
      intros _. exists au. eexists. split_and!; try reflexivity. cbn. right. left. split_and!; auto. }
  destruct (decide (aType au = TypeTOTP)) as [T2|T2].
  { apply totp_discipline in H as (_ & H1 & H2). destruct (v_err r) as [e|] eqn:Ee.
    - destruct H1 as [U E]; [discriminate|]. rewrite U. split_and!; auto; discriminate.
    - destruct H2 as (U & N & E); auto. rewrite U, E. split_and!; auto; try congruence.
      intros _. exists au. eexists. split_and!; try reflexivity. cbn. left. split_and!; auto. }
  destruct (decide (aType au = TypeSession)) as [T3|T3].
  { apply session_discipline in H as (H1 & H2). destruct (v_err r) as [e|] eqn:Ee.
    - destruct H1 as [U E]; [discriminate|]. rewrite U. split_and!; auto; discriminate.
    - destruct H2 as (U & next & N & D & E); auto. rewrite U, E. split_and!; auto; try congruence.
      intros _. exists au. eexists. split_and!; try reflexivity. cbn. right. right. split_and!; eauto. }
  destruct (decide (aType au = TypePassword)) as [T4|T4].
  { destruct (password_discipline au pw g) as [e E]. rewrite E in H. injection H as <-. cbn. split_and!; auto; discriminate. }
  injection H as <-. cbn. split_and!; auto; discriminate.
Qed.

Lemma validate_unknown now a pw g :
  (forall au, a = Some au -> aType au <> bs "TOTP" /\ aType au <> bs "session" /\ aType au <> bs "yubikey" /\ aType au <> bs "password") ->
  validate now a pw g = Ret (VRes a false (Some EInvalidAuthenticator) g).
Proof.
  intros H. destruct a as [au|]; [|reflexivity]. destruct (H au eq_refl) as (H1 & H2 & H3 & H4).
  rewrite validate_dispatch, !decide_False by assumption. reflexivity.
Qed.

(** ** Runs *)
Lemma validate_session_dispatch now au pw g :
  aType au = TypeSession -> validate now (Some au) pw g = validate_session (Some au) pw g.
Proof. intros T. rewrite validate_dispatch, T. reflexivity. Qed.
Lemma validate_yubikey_dispatch now au pw g :
  aType au = TypeYubiKey -> validate now (Some au) pw g = validate_yubikey (Some au) pw g.
Proof. intros T. rewrite validate_dispatch, T. reflexivity. Qed.
Lemma validate_totp_dispatch now au pw g :
  aType au = TypeTOTP -> validate now (Some au) pw g = validate_totp now (Some au) pw g.
Proof. intros T. rewrite validate_dispatch, T. reflexivity. Qed.

Lemma run_session au l c0 :
  aType au = TypeSession -> hex_decode (aLast au) = Some c0 ->
  exists au' oks chs fresh lst, run au l = Some (au', oks) /\ length oks = length l /\
    c0 :: fresh = chs ++ [lst] /\
    hex_decode (aLast au') = Some lst /\ aType au' = aType au /\ aSecret au' = aSecret au /\
    Forall2 (fun t f => length f = 32%nat /\ exists g', delivers (at_rng t) f g') (accepted l oks) fresh /\
    Forall2 (fun t ch => hex_decode (at_pw t) = Some (response (aSecret au) ch)) (accepted l oks) chs.
Proof.
  revert au c0. induction l as [|t l IH]; intros au c0 T Hc.
  - exists au, [], [], [], c0. cbn. split_and!; auto.
  - cbn [run]. rewrite validate_session_dispatch by assumption.
    destruct (validate_session_exact au (at_pw t) (at_rng t) T) as [(e & h & E & _)|(ch & next & h & E & H1 & H2 & H3 & H4 & H5)]; rewrite E; cbn [v_auth v_err].
    + destruct (IH au c0 T Hc) as (au' & oks & chs & fresh & lst & R & Hl & H). rewrite R.
      exists au', (false :: oks), chs, fresh, lst. cbn [length accepted]. split_and!; auto; try tauto.
    + destruct (IH (Auth (aType au) (aLabel au) (hex_encode next) (aSecret au)) next T (hex_roundtrip next))
        as (au' & oks & chs & fresh & lst & R & Hl & Hs & H & H6 & H7 & H8 & H9). rewrite R. cbn [aType aSecret] in *.
      exists au', (true :: oks), (c0 :: chs), (next :: fresh), lst. cbn [length accepted].
      split_and!; auto; try lia.
      * cbn. f_equal. exact Hs.
      * constructor; auto. eauto.
      * constructor; auto. congruence.
Qed.

Lemma response_inj k a b : response k a = response k b -> a = b.
Proof.
  unfold response. intros E. assert (length a = length b).
  { apply (f_equal length) in E. rewrite !app_length, !hmac_sha256_length in E. lia. }
  apply app_inj_1 in E; tauto.
Qed.
Lemma run_session_nodup au l c0 au' oks :
  aType au = TypeSession -> hex_decode (aLast au) = Some c0 -> run au l = Some (au', oks) ->
  (forall fresh, Forall2 (fun t f => exists g', length f = 32%nat /\ delivers (at_rng t) f g') (accepted l oks) fresh -> NoDup (c0 :: fresh)) ->
  NoDup (map (fun t => hex_decode (at_pw t)) (accepted l oks)).
Proof.
  intros T Hc R D. destruct (run_session au l c0 T Hc) as (au2 & oks2 & chs & fresh & lst & R' & _ & Hs & _ & _ & _ & F & H).
  rewrite R in R'. injection R' as <- <-.
  assert (NoDup (c0 :: fresh)) as N.
  { apply D. eapply Forall2_impl; [exact F|]. intros t f [H1 [g' H2]]. eauto. }
  rewrite Hs in N. apply NoDup_app in N as (N & _ & _).
  clear - L H N. revert H N. generalize (accepted l oks). intros ac H. induction H as [|t ch ac chs E F IH].
  - intros _. constructor.
  - intros N. apply NoDup_cons in N as [N1 N2]. cbn [map]. apply NoDup_cons. split; [|auto].
    rewrite E. intros Hin. apply elem_of_list_fmap in Hin as (t' & E' & Ht).
    apply elem_of_list_lookup in Ht as [i Hi]. destruct (Forall2_lookup_l _ _ _ _ _ F Hi) as (ch' & Hc & E2). cbn in E2.
    rewrite E2 in E'. injection E' as E'. apply response_inj in E'. subst ch'. apply N1. eapply elem_of_list_lookup_2; eauto.
Qed.
End WithLibs.

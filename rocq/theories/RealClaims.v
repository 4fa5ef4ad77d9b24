(** What the code's outputs are, over the real primitives. *)
From Verif Require Export SpecReal RealFacts ToyCurve Aes.
From Verif Require Import SecretFacts PublicFacts AuthFacts.
Local Open Scope Z_scope.

(** *** Secretbox *)
Lemma stream_more k n b d : exists t, xsalsa_stream k n (b + d) = xsalsa_stream k n b ++ t.
Proof. unfold xsalsa_stream. cbv zeta. rewrite seq_app, map_app, concat_app. eauto. Qed.
Lemma xor_more a : forall b t, (length a <= length b)%nat -> bytes_xor a (b ++ t) = bytes_xor a b.
Proof. unfold bytes_xor. induction a as [|x a IH]; intros [|y b] t H; cbn in *; try reflexivity; [lia|]. f_equal. apply IH. lia. Qed.
Lemma box_of_stream (m b t : bytes) : (32 + length m <= length b)%nat ->
  poly1305 (take 32 (b ++ t)) (bytes_xor m (drop 32 (b ++ t))) ++ bytes_xor m (drop 32 (b ++ t)) = poly1305 (take 32 b) (bytes_xor m (drop 32 b)) ++ bytes_xor m (drop 32 b).
Proof.
  intros H. rewrite take_app_le by lia. rewrite drop_app_le by lia. rewrite xor_more by (rewrite drop_length; lia). reflexivity.
Qed.
Lemma boxed_seal k n m box : length k = 32%nat -> length n = 24%nat -> boxed k n m box <-> box = secretbox_seal k n m.
Proof.
  intros Hk Hn. pose proof (box_stream_enough k n m) as En. unfold secretbox_seal, box_stream in *. rewrite (copy_into_id 32 k Hk), (copy_into_id 24 n Hn) in *. cbv zeta.
  set (q := (length m / 64 + 2)%nat) in *. split.
  - intros (b & s & c & -> & Hs & -> & ->). destruct (Nat.le_ge_cases b q) as [Hb|Hb].
    + destruct (stream_more k n b (q - b)) as [t Et]. replace (b + (q - b))%nat with q in Et by lia. rewrite Et. symmetry. apply box_of_stream; lia.
    + destruct (stream_more k n q (b - q)) as [t Et]. replace (q + (b - q))%nat with b in Et by lia. rewrite Et. apply box_of_stream; lia.
  - intros ->. exists q, (xsalsa_stream k n q), (bytes_xor m (drop 32 (xsalsa_stream k n q))). auto.
Qed.
Lemma xor_cancel a : forall b s, length a = length b -> (length a <= length s)%nat -> bytes_xor (bytes_xor a s) (bytes_xor b s) = bytes_xor a b.
Proof.
  unfold bytes_xor. induction a as [|x a IH]; intros [|y b] [|z s] E H; cbn in *; try reflexivity; try lia. f_equal; [|apply IH; lia].
  rewrite !bz_zb. pose proof (bz_range x) as Hx. pose proof (bz_range y) as Hy. pose proof (bz_range z) as Hz.
  assert (forall u v, 0 <= u < 256 -> 0 <= v < 256 -> Z.lxor u v mod 256 = Z.lxor u v) as R.
  { intros u v Hu Hv. change 256 with (2 ^ 8) in *. rewrite <- Z.land_ones by lia. apply Z.bits_inj'. intros i Hi. rewrite Z.land_spec.
    destruct (decide (i < 8)).
    - rewrite Z.ones_spec_low by lia. apply andb_true_r.
    - rewrite Z.ones_spec_high by lia. rewrite andb_false_r, Z.lxor_spec. rewrite <- (Z.mod_small u (2 ^ 8) Hu), <- (Z.mod_small v (2 ^ 8) Hv). rewrite !Z.mod_pow2_bits_high by lia. reflexivity. }
  rewrite !R by lia. f_equal. rewrite (Z.lxor_comm (bz y)), Z.lxor_assoc, <- (Z.lxor_assoc (bz z)), Z.lxor_nilpotent, Z.lxor_0_l. reflexivity.
Qed.
Lemma boxed_reuse k n m1 m2 b1 b2 : length k = 32%nat -> length n = 24%nat -> boxed k n m1 b1 -> boxed k n m2 b2 -> length m1 = length m2 ->
  bytes_xor (drop 16 b1) (drop 16 b2) = bytes_xor m1 m2.
Proof.
  intros Hk Hn B1 B2 E. apply boxed_seal in B1 as ->; [|assumption..]. apply boxed_seal in B2 as ->; [|assumption..].
  unfold secretbox_seal. cbv zeta. rewrite !drop_app_alt by (rewrite poly1305_length; reflexivity). rewrite (box_stream_same k n m2 m1) by auto.
  pose proof (box_stream_enough k n m1). apply xor_cancel; [exact E|]. rewrite drop_length. lia.
Qed.

(** The functions over files use three of the primitives only. *)
Lemma files_same (C1 C2 : Crypto) : @sbox_seal C1 = @sbox_seal C2 -> @sbox_open C1 = @sbox_open C2 -> @scrypt_raw C1 = @scrypt_raw C2 ->
  @decrypt_file C1 = @decrypt_file C2 /\ @encrypt_file C1 = @encrypt_file C2 /\ @file_format C1 = @file_format C2 /\ @genuine_file C1 = @genuine_file C2 /\
  @derive_key C1 = @derive_key C2 /\ @derive_key_strength C1 = @derive_key_strength C2.
Proof. destruct C1, C2; cbn; intros -> -> ->. repeat split. Qed.
Lemma exchange_is (C : Crypto) da sa db sb : key_exchange (Some (keypair da sa)) (kPub (keypair db sb)) = Ret (copy_into 32 (box_shared (box_pub db) da)).
Proof. reflexivity. Qed.
Lemma shared_real (K : Curve) p d : box_shared (Crypto := real) (box_pub (Crypto := real) p) d = hsalsa (x25519 d (x25519 p nine)) (zeros 16).
Proof. reflexivity. Qed.
Lemma scrypt_raw_real (K : Curve) p s N r q : scrypt_raw (Crypto := real) p s N r q = scrypt_of p s N r q 32.
Proof. reflexivity. Qed.

Section WithCurve.
Context `{K : Curve}.
(** *** common/secret: no law of the curve is needed *)
Notation toyreal := (real (K := toy_curve)).
Lemma toyreal_laws : CryptoLaws (C := toyreal).
Proof. apply (real_laws (KL := toy_curve_laws)). Qed.
Lemma sealed_boxed k nonce m c : length k = 32%nat -> sealed_with (C := real) k nonce m c <-> exists box, length nonce = 24%nat /\ c = nonce ++ box /\ boxed k nonce m box.
Proof.
  intros Hk. unfold sealed_with. split.
  - intros [Hn ->]. eexists. split; [exact Hn|]. split; [reflexivity|]. apply boxed_seal; auto.
  - intros (box & Hn & -> & B). split; [exact Hn|]. f_equal. apply boxed_seal in B; auto.
Qed.
Lemma real_decrypt k c m : length k = 32%nat ->
  decrypt (C := real) (Some k) c = Ret (Some m) <-> exists nonce box, length nonce = 24%nat /\ c = nonce ++ box /\ boxed k nonce m box.
Proof.
  intros Hk. transitivity (exists nonce, sealed_with (C := real) k nonce m c); [exact (decrypt_exact (C := toyreal) (L := toyreal_laws) k c m)|].
  split; intros [n H]; exists n; apply sealed_boxed; assumption.
Qed.
Lemma real_encrypt k m g nonce g' : length k = 32%nat -> length nonce = 24%nat -> delivers g nonce g' ->
  exists box, encrypt (C := real) (Some k) m g = Ret (Some (nonce ++ box), g') /\ boxed k nonce m box.
Proof.
  intros Hk Hn D. destruct (encrypt_roundtrip (C := toyreal) (L := toyreal_laws) k m g) as [H _].
  destruct (H nonce g' Hn D) as (c & E & _ & S & _). apply (sealed_boxed k nonce m c Hk) in S as (box & _ & -> & B). exists box. split; [exact E|exact B].
Qed.
Lemma real_reuse k m1 m2 g c1 c2 g1 g2 : length k = 32%nat -> length m1 = length m2 ->
  encrypt (C := real) (Some k) m1 g = Ret (Some c1, g1) -> encrypt (C := real) (Some k) m2 g = Ret (Some c2, g2) ->
  take 24 c1 = take 24 c2 /\ bytes_xor (drop 40 c1) (drop 40 c2) = bytes_xor m1 m2.
Proof.
  intros Hk El E1 E2. destruct (delivers_or_starved g 24) as [(nonce & g' & Hn & D)|N].
  - destruct (real_encrypt k m1 g nonce g' Hk Hn D) as (b1 & F1 & B1). destruct (real_encrypt k m2 g nonce g' Hk Hn D) as (b2 & F2 & B2).
    rewrite F1 in E1. rewrite F2 in E2. injection E1 as <- _. injection E2 as <- _. rewrite !take_app_alt by auto. split; [reflexivity|].
    assert (forall x, drop 40 (nonce ++ x) = drop 16 x) as Dx by (intros x; rewrite drop_app_ge by lia; f_equal; lia). rewrite !Dx. eapply boxed_reuse; eauto.
  - destruct (encrypt_starved (C := real) (Some k) m1 g N) as [g' H]. congruence.
Qed.
Lemma scrypt_of_length p s N r q n : length (scrypt_of p s N r q n) = n.
Proof. apply pbkdf2_length. Qed.
Lemma file_boxed pass salt nonce m data : file_format (C := real) (2 ^ 20) 8 2 pass salt nonce m data <->
  exists box, data = salt ++ nonce ++ box /\ length salt = 32%nat /\ length nonce = 24%nat /\ boxed (file_key pass salt) nonce m box.
Proof.
  assert (length (file_key pass salt) = 32%nat) as Hk by (unfold file_key; apply scrypt_of_length).
  unfold file_format. rewrite scrypt_raw_real. fold (file_key pass salt). generalize dependent (file_key pass salt). intros k Hk. split.
  - intros (Hs & c & S & ->). apply (sealed_boxed k) in S as (box & Hn & -> & B); [|exact Hk]. exists box. auto.
  - intros (box & -> & Hs & Hn & B). split; [exact Hs|]. exists (nonce ++ box). split; [|reflexivity]. apply (sealed_boxed k); [exact Hk|]. eauto.
Qed.
Lemma real_decrypt_file f name pass m : decrypt_file (C := real) f name pass = Ret (inr m) <->
  exists salt nonce box, f !! name = Some (salt ++ nonce ++ box) /\ length salt = 32%nat /\ length nonce = 24%nat /\ boxed (file_key pass salt) nonce m box.
Proof.
  transitivity (exists data, f !! name = Some data /\ genuine_file (C := real) pass m data); [|].
  { destruct (files_same (real (K := K)) toyreal eq_refl eq_refl eq_refl) as (-> & _ & _ & -> & _). exact (decrypt_file_exact (C := toyreal) (L := toyreal_laws) f name pass m). }
  unfold genuine_file. split.
  - intros (data & E & salt & nonce & G). apply file_boxed in G as (box & -> & A & B & D). exists salt, nonce, box. auto.
  - intros (salt & nonce & box & E & A & B & D). eexists. split; [exact E|]. exists salt, nonce. apply file_boxed. eauto.
Qed.
Lemma real_encrypt_file f name pass d g salt nonce g' : length salt = 32%nat -> length nonce = 24%nat -> delivers g (salt ++ nonce) g' ->
  exists r box, encrypt_file (C := real) WOk f name pass d g = Ret r /\ ef_err r = None /\ ef_rng r = g' /\
    ef_fs r !! name = Some (salt ++ nonce ++ box) /\ boxed (file_key pass salt) nonce d box.
Proof.
  intros Hs Hn D. pose proof (encrypt_file_succeeds (C := toyreal) (L := toyreal_laws) f name pass d g salt nonce g' Hs Hn D) as H.
  destruct (files_same (real (K := K)) toyreal eq_refl eq_refl eq_refl) as (_ & E2 & E3 & _). rewrite <- E2, <- E3 in H. destruct H as (r & E & A & B & data & F & G).
  apply file_boxed in G as (box & -> & _ & _ & X). exists r, box. auto.
Qed.

Lemma real_derive pass salt m :
  (m = 0 -> derive_key_strength (C := real) pass salt m = Some (scrypt_of pass salt (2 ^ 20) 8 2 32)) /\
  (m = 1 -> derive_key_strength (C := real) pass salt m = Some (scrypt_of pass salt (2 ^ 14) 8 1 32)) /\
  (m <> 0 -> m <> 1 -> derive_key_strength (C := real) pass salt m = None) /\
  derive_key (C := real) pass salt = Some (scrypt_of pass salt (2 ^ 20) 8 2 32).
Proof.
  pose proof (derive_exact (C := toyreal) (L := toyreal_laws) pass salt m) as (A & B & D & _). pose proof (derive_key_is (C := toyreal) (L := toyreal_laws) pass salt) as F.
  destruct (files_same (real (K := K)) toyreal eq_refl eq_refl eq_refl) as (_ & _ & _ & _ & E5 & E6). rewrite <- E5 in F. rewrite <- E6 in A, B, D. rewrite scrypt_raw_real in A, B, F. auto.
Qed.

(** *** common/auth *)
Lemma real_totp c now : tStep c <> 0 -> 1 <= tSize c <= 10 -> tAlgo c = 3 -> exists s, otp_at (C := real) c now = Ret (Some s) /\
  length s = Z.to_nat (tSize c) /\ Forall is_digit s /\
  exists lst pre p post, hmac sha_1 (tKey c) (be 8 (totp_counter c now)) = pre ++ p ++ post /\ last (pre ++ p ++ post) = Some lst /\
    length pre = Z.to_nat (bz lst mod 16) /\ length p = 4%nat /\ dval s = (unbe p mod 2 ^ 31) mod 10 ^ tSize c.
Proof.
  intros A B D. destruct (otp_at_code (C := toyreal) (L := toyreal_laws) c now A B D) as (s & E & Hl & Hd & n & (hs & lst & pre & p & post & Eh & El & Ea & Ep & E4 & ->) & Ev).
  exists s. split; [exact E|]. split; [exact Hl|]. split; [exact Hd|]. exists lst, pre, p, post. subst hs. rewrite Ea in El.
  split; [exact Ea|]. split; [exact El|]. split; [exact Ep|]. split; [exact E4|]. rewrite Ev. f_equal. f_equal. lia.
Qed.

(** *** common/public *)
Lemma ed_check_valid v m sig : length sig = 64%nat -> ed_check v m sig = true <-> ed_valid v m sig.
Proof.
  intros Hl. unfold ed_check, ed_valid. split.
  - destruct (pdec v) as [A|] eqn:E; [|discriminate]. rewrite !andb_true_iff, !bool_decide_eq_true. intros [[_ H1] H2].
    exists A, (take 32 sig), (drop 32 sig). split; [reflexivity|]. split; [symmetry; apply take_drop|]. split; [rewrite take_length; lia|]. split; [rewrite drop_length; lia|]. auto.
  - intros (A & R & S & -> & -> & HR & HS & H1 & H2). rewrite take_app_alt, drop_app_alt by auto. rewrite !andb_true_iff, !bool_decide_eq_true. auto.
Qed.
Lemma real_verify p m sig : verify (C := real) p m sig = Ret true <-> exists e v, p = Some (PubKey (Some e) (Some v)) /\ length sig = 64%nat /\ ed_valid v m sig.
Proof.
  destruct (verify_exact (C := real) p m sig) as [_ ->]. split; intros (e & v & -> & Hl & H); exists e, v; split; auto; split; auto; apply ed_check_valid; assumption.
Qed.
Lemma real_sealed e ep nonce payload c : length nonce = 24%nat -> sealed_to (C := real) e ep nonce payload c <->
  exists box, c = x25519 ep nine ++ nonce ++ box /\ boxed (hsalsa (x25519 ep e) (zeros 16)) nonce payload box.
Proof.
  intros Hn. unfold sealed_to. change (box_pub (Crypto := real) ep) with (x25519 ep nine). change (box_shared (Crypto := real) e ep) with (hsalsa (x25519 ep e) (zeros 16)).
  pose proof (hsalsa_length (x25519 ep e) (zeros 16)) as Hk. generalize dependent (hsalsa (x25519 ep e) (zeros 16)). intros k Hk.
  change (@sbox_seal real) with secretbox_seal. split.
  - intros ->. eexists. split; [reflexivity|]. apply boxed_seal; auto.
  - intros (box & -> & B). apply boxed_seal in B as ->; auto.
Qed.
Lemma real_opens d c payload : opens_to (C := real) d c payload <->
  exists epub nonce box, length epub = 32%nat /\ length nonce = 24%nat /\ c = epub ++ nonce ++ box /\ boxed (hsalsa (x25519 d epub) (zeros 16)) nonce payload box.
Proof.
  unfold opens_to. change (@sbox_seal real) with secretbox_seal. split.
  - intros (epub & nonce & He & Hn & ->). exists epub, nonce. eexists. split; [exact He|]. split; [exact Hn|]. split; [reflexivity|].
    change (box_shared (Crypto := real) epub d) with (hsalsa (x25519 d epub) (zeros 16)).
    pose proof (hsalsa_length (x25519 d epub) (zeros 16)) as Hk. generalize dependent (hsalsa (x25519 d epub) (zeros 16)). intros k Hk. apply boxed_seal; auto.
  - intros (epub & nonce & box & He & Hn & -> & B). exists epub, nonce. split; [exact He|]. split; [exact Hn|]. f_equal. f_equal.
    change (box_shared (Crypto := real) epub d) with (hsalsa (x25519 d epub) (zeros 16)).
    pose proof (hsalsa_length (x25519 d epub) (zeros 16)) as Hk. generalize dependent (hsalsa (x25519 d epub) (zeros 16)). intros k B Hk. apply boxed_seal in B; auto.
Qed.
Lemma real_session shared next : fst (session_otp (C := real) shared next) = hex_encode (vis next ++ hmac sha_256 shared (vis next)).
Proof. apply (session_otp_spec (C := toyreal) (L := toyreal_laws) shared next). Qed.
Context {KL : CurveLaws}.
Lemma pmul_eq a b : pmul a pbase = pmul b pbase -> (ed_order | a - b).
Proof.
  intros E. apply pbase_order. replace (a - b) with (a + - b) by lia. rewrite pmul_add, E, <- pmul_add. replace (b + - b) with 0 by lia. apply pmul_zero.
Qed.
Lemma real_one_scalar p m R S1 S2 : length R = 32%nat -> verify (C := real) p m (R ++ S1) = Ret true -> verify (C := real) p m (R ++ S2) = Ret true -> S1 = S2.
Proof.
  intros HR V1 V2. apply real_verify in V1 as (e & v & -> & L1 & A1 & R1 & T1 & D1 & E1 & HR1 & HT1 & B1 & Q1).
  apply real_verify in V2 as (e2 & v2 & [= <- <-] & L2 & A2 & R2 & T2 & D2 & E2 & HR2 & HT2 & B2 & Q2).
  apply app_inj_1 in E1 as [<- <-]; [|lia]. apply app_inj_1 in E2 as [<- <-]; [|lia]. rewrite D1 in D2. injection D2 as <-.
  set (k := unle (sha_512 (R ++ v ++ m)) mod ed_order) in *.
  assert (padd (pmul (- k) A1) (pmul (unle S1) pbase) = padd (pmul (- k) A1) (pmul (unle S2) pbase)) as Q.
  { assert (Some (padd (pmul (- k) A1) (pmul (unle S1) pbase)) = Some (padd (pmul (- k) A1) (pmul (unle S2) pbase))) as X; [|now injection X].
    rewrite <- !pdec_enc. f_equal. congruence. }
  apply (f_equal (padd (pmul k A1))) in Q. rewrite !padd_assoc, <- !pmul_add in Q. replace (k + - k) with 0 in Q by lia. rewrite pmul_zero, !padd_zero in Q.
  apply pmul_eq in Q as [q Q]. assert (forall l, 0 <= unle l) as Nn by (intros l; apply unbe_range). pose proof (Nn S1). pose proof (Nn S2). pose proof ed_order_pos as [O _].
  assert (unle S1 = unle S2) as E.
  { clear - Q B1 B2 O H H0. assert (q = 0) as ->; [|lia]. generalize dependent ed_order. intros o. intros. nia. }
  unfold unle in E. apply unbe_inj in E; [|rewrite !rev_length; lia]. rewrite <- (rev_involutive S1), <- (rev_involutive S2). now f_equal.
Qed.
Lemma real_exchange da sa db sb : length da = 32%nat -> length db = 32%nat ->
  key_exchange (C := real) (Some (keypair (C := real) da sa)) (kPub (keypair (C := real) db sb)) = Ret (hsalsa (x25519 da (x25519 db nine)) (zeros 16)) /\
  key_exchange (C := real) (Some (keypair (C := real) db sb)) (kPub (keypair (C := real) da sa)) = Ret (hsalsa (x25519 da (x25519 db nine)) (zeros 16)).
Proof.
  intros Ha Hb. rewrite !exchange_is, !shared_real. rewrite (x25519_dh db da) by assumption. rewrite !copy_into_id by apply hsalsa_length. auto.
Qed.
Lemma real_pub_decrypt k c m : pub_decrypt (C := real) (Some k) c = Ret (Some m) <->
  priv_valid (Some k) = true /\ (1 <= zlen m < 2 ^ 31) /\
  exists d epub nonce payload box, kD k = Some d /\ is_record m payload /\ length epub = 32%nat /\ length nonce = 24%nat /\
    c = epub ++ nonce ++ box /\ boxed (hsalsa (x25519 d epub) (zeros 16)) nonce payload box.
Proof.
  pose proof (pub_decrypt_exact (C := real) (L := real_laws) k c m) as ->. split; intros (V & R & H); split; auto; split; auto.
  - destruct H as (d & payload & Ed & O & I). apply real_opens in O as (epub & nonce & box & A & B & D & E). exists d, epub, nonce, payload, box. auto 10.
  - destruct H as (d & epub & nonce & payload & box & Ed & I & A & B & D & E). exists d, payload. split; [exact Ed|]. split; [|exact I]. apply real_opens. exists epub, nonce, box. auto.
Qed.
Lemma real_pub_encrypt p m g c g' : pub_encrypt (C := real) p m g = Ret (Some c, g') -> zlen m < 2 ^ 32 ->
  exists e v ep nonce payload box, p = Some (PubKey (Some e) (Some v)) /\ length ep = 32%nat /\ length nonce = 24%nat /\ delivers g (ep ++ nonce) g' /\
    is_record m payload /\ c = x25519 ep nine ++ nonce ++ box /\ boxed (hsalsa (x25519 ep e) (zeros 16)) nonce payload box.
Proof.
  rewrite pub_encrypt_eq. intros H Hm. apply encrypt_raw_inv in H as [|(e & v & ep & nonce & -> & He & Hn & D & c' & [= <-] & S)]; [discriminate|].
  apply real_sealed in S as (box & -> & B); [|exact Hn]. exists e, v, ep, nonce, (rec_of (VBytes m)), box. pose proof (is_record_rec m Hm). auto 10.
Qed.
Lemma real_sign d seed m : length seed = 32%nat -> exists sig, sign (C := real) (Some (keypair (C := real) d seed)) m = Ret (Some sig) /\
  length sig = 64%nat /\ ed_valid (ed_public seed) m sig.
Proof.
  intros Hs. destruct (sign_verify (C := real) (L := real_laws) d seed m Hs) as (sig & E & Hl & V). exists sig. split; [exact E|]. split; [exact Hl|].
  apply real_verify in V as (e & v & X & _ & H). unfold keypair in X. cbn [kPub] in X. injection X as _ <-. exact H.
Qed.
End WithCurve.

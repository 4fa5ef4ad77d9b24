(** The laws assumed of the primitives hold of the real ones. *)
From Verif Require Export Curve BytesFacts.
Local Open Scope Z_scope.

Lemma length_le n z : length (lend n z) = n.
Proof. unfold lend. rewrite rev_length. apply length_be. Qed.
Lemma unle_le n z : unle (lend n z) = z mod 256 ^ Z.of_nat n.
Proof. unfold unle, lend. rewrite rev_involutive. apply unbe_be. Qed.
Lemma length_pieces n k l : length (pieces n k l) = n.
Proof. revert l; induction n as [|n IH]; intros l; cbn; [reflexivity|f_equal; apply IH]. Qed.

(** *** Hashes *)
Lemma length_st8 q s : length (st8_bytes q s) = (8 * q)%nat.
Proof. destruct s. cbn [st8_bytes]. rewrite !app_length, !length_be. lia. Qed.
Lemma sha_256_length m : length (sha_256 m) = 32%nat.
Proof. apply length_st8. Qed.
Lemma sha_512_length m : length (sha_512 m) = 64%nat.
Proof. apply length_st8. Qed.
Lemma sha_1_length m : length (sha_1 m) = 20%nat.
Proof. unfold sha_1. destruct (hash_blocks _ _ _ _). rewrite !app_length, !length_be. reflexivity. Qed.
Lemma length_concat_map {A} (f : A -> bytes) k l : (forall x, length (f x) = k) -> length (concat (map f l)) = (length l * k)%nat.
Proof. intros H. induction l as [|x l IH]; cbn; [reflexivity|]. rewrite app_length, H, IH. lia. Qed.
Lemma pbkdf2_length p s n : length (pbkdf2 p s n) = n.
Proof.
  unfold pbkdf2. rewrite take_length, (length_concat_map _ 32); [|intros i; unfold hmac; apply sha_256_length]. rewrite seq_length.
  pose proof (Nat.div_mod n 32) as H. pose proof (Nat.mod_upper_bound n 32) as H2. lia.
Qed.

(** *** Secretbox *)
Lemma length_w16 s : length (w16_bytes s) = 64%nat.
Proof. destruct s. cbn [w16_bytes]. rewrite !app_length, !length_le. reflexivity. Qed.
Lemma hsalsa_length k n : length (hsalsa k n) = 32%nat.
Proof. unfold hsalsa. destruct (Nat.iter _ _ _). rewrite !app_length, !length_le. reflexivity. Qed.
Lemma stream_length k n b : length (xsalsa_stream k n b) = (b * 64)%nat.
Proof. unfold xsalsa_stream. cbv zeta. rewrite (length_concat_map _ 64); [|intros; apply length_w16]. now rewrite seq_length. Qed.
Lemma box_stream_enough k n m : (32 + length m <= length (box_stream k n m))%nat.
Proof.
  unfold box_stream. rewrite stream_length. pose proof (Nat.div_mod (length m) 64) as H. pose proof (Nat.mod_upper_bound (length m) 64) as H2. lia.
Qed.
Lemma box_stream_same k n m m' : length m = length m' -> box_stream k n m = box_stream k n m'.
Proof. unfold box_stream. intros ->. reflexivity. Qed.
Lemma length_xor a b : (length a <= length b)%nat -> length (bytes_xor a b) = length a.
Proof. intros H. unfold bytes_xor. rewrite zip_with_length_l; auto. Qed.
Lemma xor_twice a : forall b, (length a <= length b)%nat -> bytes_xor (bytes_xor a b) b = a.
Proof.
  unfold bytes_xor. induction a as [|x a IH]; intros [|y b] H; cbn in *; try reflexivity; [lia|]. rewrite IH by lia. f_equal.
  rewrite bz_zb. pose proof (bz_range x) as Hx. pose proof (bz_range y) as Hy.
  assert (0 <= Z.lxor (bz x) (bz y) < 256) as R.
  { split; [apply Z.lxor_nonneg; lia|]. destruct (decide (Z.lxor (bz x) (bz y) = 0)) as [->|N]; [lia|].
    change 256 with (2 ^ 8). apply Z.log2_lt_pow2; [pose proof (proj2 (Z.lxor_nonneg (bz x) (bz y))); lia|].
    pose proof (Z.log2_lxor (bz x) (bz y)) as L. specialize (L ltac:(lia) ltac:(lia)).
    assert (forall z, 0 <= z < 256 -> Z.log2 z < 8) as Lz.
    { intros z Hz. destruct (decide (z = 0)) as [->|]; [cbn; lia|]. apply Z.log2_lt_pow2; lia. }
    pose proof (Lz _ Hx). pose proof (Lz _ Hy). lia. }
  rewrite Z.mod_small by exact R. rewrite Z.lxor_assoc, Z.lxor_nilpotent, Z.lxor_0_r. apply zb_bz.
Qed.
Lemma poly1305_length k m : length (poly1305 k m) = 16%nat.
Proof. apply length_le. Qed.
Lemma seal_length k n m : length (secretbox_seal k n m) = (16 + length m)%nat.
Proof.
  unfold secretbox_seal. cbv zeta. pose proof (box_stream_enough k n m). rewrite app_length, poly1305_length, length_xor; [reflexivity|]. rewrite drop_length. lia.
Qed.
Lemma open_seal k n c m : secretbox_open k n c = Some m <-> c = secretbox_seal k n m.
Proof.
  unfold secretbox_open. split.
  - destruct (decide _) as [|N]; [discriminate|]. cbv zeta. destruct (decide _) as [E|]; [|discriminate]. intros [= <-].
    set (s := box_stream k n (drop 16 c)) in *. pose proof (box_stream_enough k n (drop 16 c)) as En. fold s in En.
    assert (length (drop 16 c) <= length (drop 32 s))%nat as Le by (rewrite (drop_length s); lia).
    unfold secretbox_seal. rewrite (box_stream_same k n (bytes_xor (drop 16 c) (drop 32 s)) (drop 16 c)) by (apply length_xor; exact Le).
    fold s. cbv zeta. rewrite (xor_twice _ _ Le), <- E. symmetry. apply take_drop.
  - intros ->. rewrite decide_False by (rewrite seal_length; lia). cbv zeta. unfold secretbox_seal. cbv zeta.
    set (s := box_stream k n m). pose proof (box_stream_enough k n m) as En. fold s in En. assert (length m <= length (drop 32 s))%nat as Le by (rewrite (drop_length s); lia).
    rewrite drop_app_alt by (rewrite poly1305_length; reflexivity). rewrite take_app_alt by (rewrite poly1305_length; reflexivity).
    rewrite (box_stream_same k n (bytes_xor m (drop 32 s)) m) by (apply length_xor; exact Le). fold s. rewrite decide_True by reflexivity. f_equal. apply xor_twice, Le.
Qed.

(** *** Ed25519 *)
Section WithCurve.
Context `{K : Curve} {KL : CurveLaws}.
Lemma pmul_period a q : pmul (a + q * ed_order) pbase = pmul a pbase.
Proof.
  rewrite Z.add_comm, pmul_add, pmul_mul, (proj2 (pbase_order ed_order)) by apply Z.divide_refl. assert (pmul q pzero = pzero) as ->; [|apply padd_zero].
  rewrite <- (pmul_zero pbase), <- pmul_mul, Z.mul_0_r. reflexivity.
Qed.
Lemma pmul_mod a : pmul (a mod ed_order) pbase = pmul a pbase.
Proof. rewrite (Z_div_mod_eq_full a ed_order) at 2. rewrite Z.add_comm, Z.mul_comm. symmetry. apply pmul_period. Qed.
Lemma ed_order_pos : 0 < ed_order < 256 ^ 32.
Proof. unfold ed_order. split; reflexivity. Qed.
Lemma ed_check_sign s m : length s = 32%nat -> ed_check (ed_public s) m (ed_signature (s ++ ed_public s) m) = true.
Proof.
  intros Hs. unfold ed_signature. cbv zeta. rewrite take_app_alt, drop_app_alt by (symmetry; exact Hs).
  set (r := unle _ mod ed_order). set (R := penc (pmul r pbase)). set (k := unle _ mod ed_order). set (a := ed_scalar s).
  set (S := (r + k * a) mod ed_order). pose proof ed_order_pos as [O1 O2].
  assert (0 <= S < ed_order) as HS by (apply Z.mod_pos_bound, O1).
  unfold ed_check. unfold ed_public at 1. rewrite pdec_enc. rewrite take_app_alt, drop_app_alt by (unfold R; now rewrite penc_length).
  cbv zeta. fold k. rewrite unle_le. change (256 ^ Z.of_nat 32) with (256 ^ 32). rewrite (Z.mod_small S) by lia.
  rewrite !bool_decide_eq_true_2; [reflexivity| |lia|rewrite app_length, length_le; unfold R; now rewrite penc_length].
  unfold R. f_equal. unfold S. rewrite pmul_mod. rewrite <- pmul_mul, <- pmul_add. fold a. f_equal. lia.
Qed.
Lemma real_laws : CryptoLaws (C := real).
Proof.
  constructor; cbn [real sbox_seal sbox_open scrypt_raw box_pub box_shared ed_pub ed_sign ed_verify hmac_sha1 hmac_sha256 sha256]; intros.
  - apply open_seal.
  - apply seal_length.
  - apply pbkdf2_length.
  - apply x25519_length.
  - apply hsalsa_length.
  - unfold box_precompute, box_public. f_equal. apply x25519_dh; assumption.
  - apply penc_length.
  - unfold ed_signature. cbv zeta. now rewrite app_length, length_le, penc_length.
  - apply ed_check_sign. assumption.
  - apply sha_1_length.
  - apply sha_256_length.
  - apply sha_256_length.
Qed.
End WithCurve.

(** The other way round: every block is the cipher of its decryption, a right checksum is
    the complement of the remainder, and so every token read is one some press makes. *)
From Verif Require Export AesFacts AuthFacts.
From Verif Require Import BytesFacts Base32Facts.
From Coq Require Import Ring.
Local Open Scope Z_scope.

(** ** The cipher *)
Lemma gmul_add k a b : k = x02 \/ k = x03 -> gmul k (bx a b) = bx (gmul k a) (gmul k b).
Proof.
  intros [->| ->]; [apply gmul_2_add|].
  assert (forall c, gmul x03 c = bx (gmul x02 c) c) as X.
  { intros c. apply (bool_decide_eq_true (gmul x03 c = bx (gmul x02 c) c)). revert c. apply all_bytes_ok. vm_compute. reflexivity. }
  rewrite !X, gmul_2_add. apply bx_swap.
Qed.
Lemma gmul_four k a b c d : k = x02 \/ k = x03 -> gmul k (four a b c d) = four (gmul k a) (gmul k b) (gmul k c) (gmul k d).
Proof. intros K. unfold four. rewrite !gmul_add by assumption. reflexivity. Qed.
Definition unit_col (i j k l : Z) (y : byte) : byte * byte * byte * byte :=
  (four (gmul x02 (times i y)) (gmul x03 (times j y)) (times k y) (times l y),
   four (gmul x02 (times j y)) (gmul x03 (times k y)) (times l y) (times i y),
   four (gmul x02 (times k y)) (gmul x03 (times l y)) (times i y) (times j y),
   four (gmul x02 (times l y)) (gmul x03 (times i y)) (times j y) (times k y)).
Lemma unit_cols y :
  unit_col 14 9 13 11 y = (y, x00, x00, x00) /\ unit_col 11 14 9 13 y = (x00, y, x00, x00) /\
  unit_col 13 11 14 9 y = (x00, x00, y, x00) /\ unit_col 9 13 11 14 y = (x00, x00, x00, y).
Proof.
  apply (bool_decide_eq_true (unit_col 14 9 13 11 y = (y, x00, x00, x00) /\ unit_col 11 14 9 13 y = (x00, y, x00, x00) /\
    unit_col 13 11 14 9 y = (x00, x00, y, x00) /\ unit_col 9 13 11 14 y = (x00, x00, x00, y))).
  revert y. apply all_bytes_ok. vm_compute. reflexivity.
Qed.
Lemma four_by_column a1 b1 c1 d1 a2 b2 c2 d2 a3 b3 c3 d3 a4 b4 c4 d4 :
  four (four a1 b1 c1 d1) (four a2 b2 c2 d2) (four a3 b3 c3 d3) (four a4 b4 c4 d4) =
  four (four a1 a2 a3 a4) (four b1 b2 b3 b4) (four c1 c2 c3 c4) (four d1 d2 d3 d4).
Proof.
  unfold four. apply bz_eq. rewrite !bz_bx. apply Z.bits_inj'. intros n _. rewrite !Z.lxor_spec.
  repeat match goal with |- context [Z.testbit ?x n] => generalize (Z.testbit x n); intros ? end. ring.
Qed.
Lemma mix_inv_column a b c d :
  match inv_column [a; b; c; d] with [w; x; y; z] => mix_column w x y z = [a; b; c; d] | _ => False end.
Proof.
  rewrite inv_column_eq. unfold mix_column. rewrite !gmul_four by auto.
  destruct (unit_cols a) as (A & _). destruct (unit_cols b) as (_ & B & _). destruct (unit_cols c) as (_ & _ & C & _). destruct (unit_cols d) as (_ & _ & _ & D).
  unfold unit_col in *. injection A as A1 A2 A3 A4. injection B as B1 B2 B3 B4. injection C as C1 C2 C3 C4. injection D as D1 D2 D3 D4.
  apply f_equal2; [|apply f_equal2; [|apply f_equal2; [|apply f_equal2; [|reflexivity]]]].
  - rewrite four_by_column, A1, B1, C1, D1. apply four_1.
  - rewrite four_by_column, A2, B2, C2, D2. apply four_1.
  - rewrite four_by_column, A3, B3, C3, D3. apply four_1.
  - rewrite four_by_column, A4, B4, C4, D4. apply four_1.
Qed.
Lemma mix_columns_app s0 s1 s2 s3 s4 s5 s6 s7 s8 s9 s10 s11 s12 s13 s14 s15 :
  mix_columns [s0; s1; s2; s3; s4; s5; s6; s7; s8; s9; s10; s11; s12; s13; s14; s15] =
  mix_column s0 s1 s2 s3 ++ mix_column s4 s5 s6 s7 ++ mix_column s8 s9 s10 s11 ++ mix_column s12 s13 s14 s15.
Proof. cbv [mix_columns by_column at_ flat_map map app nth Nat.add Nat.mul Nat.modulo Nat.divmod Nat.sub fst snd mix_column four]. reflexivity. Qed.
Lemma mix_inv_mix s : length s = 16%nat -> mix_columns (inv_mix s) = s.
Proof.
  intros H. sixteen s H.
  change [s0; s1; s2; s3; s4; s5; s6; s7; s8; s9; s10; s11; s12; s13; s14; s15] with
    ([s0; s1; s2; s3] ++ [s4; s5; s6; s7] ++ [s8; s9; s10; s11] ++ [s12; s13; s14; s15]).
  rewrite inv_mix_app by reflexivity.
  pose proof (mix_inv_column s0 s1 s2 s3) as E1. pose proof (mix_inv_column s4 s5 s6 s7) as E2.
  pose proof (mix_inv_column s8 s9 s10 s11) as E3. pose proof (mix_inv_column s12 s13 s14 s15) as E4.
  destruct (inv_column [s0; s1; s2; s3]) as [|? [|? [|? [|? [|? ?]]]]]; try contradiction.
  destruct (inv_column [s4; s5; s6; s7]) as [|? [|? [|? [|? [|? ?]]]]]; try contradiction.
  destruct (inv_column [s8; s9; s10; s11]) as [|? [|? [|? [|? [|? ?]]]]]; try contradiction.
  destruct (inv_column [s12; s13; s14; s15]) as [|? [|? [|? [|? [|? ?]]]]]; try contradiction.
  cbn [app]. rewrite mix_columns_app, E1, E2, E3, E4. reflexivity.
Qed.
Lemma shift_inv_shift s : length s = 16%nat -> shift_rows (inv_shift s) = s.
Proof. intros H. sixteen s H. reflexivity. Qed.
Lemma sub_inv_bytes s : sub_bytes (inv_bytes s) = s.
Proof.
  unfold inv_bytes, sub_bytes. rewrite map_map. rewrite <- (map_id s) at 2. apply map_ext. intros b. rewrite sub_byte_table.
  apply (bool_decide_eq_true (subst aes_sbox (subst aes_inv_sbox b) = b)). revert b. apply all_bytes_ok. vm_compute. reflexivity.
Qed.
Lemma round_inv s : length s = 16%nat -> shift_rows (sub_bytes (inv_bytes (inv_shift s))) = s.
Proof. intros H. rewrite sub_inv_bytes. apply shift_inv_shift. assumption. Qed.
Lemma inv_shift_length s : length (inv_shift s) = 16%nat.
Proof. reflexivity. Qed.
Lemma inv_bytes_length s : length (inv_bytes s) = length s.
Proof. apply map_length. Qed.
Lemma inv_mix_length s : length s = 16%nat -> length (inv_mix s) = 16%nat.
Proof. intros H. sixteen s H. reflexivity. Qed.
Lemma inv_rounds_length k n s :
  length k = 16%nat -> (n < 10)%nat -> length s = 16%nat -> length (inv_rounds (map (round_key k) (rev (seq 0 (S n)))) s) = 16%nat.
Proof.
  intros K. revert s. induction n as [|n IH]; intros s N Hs.
  - cbn [seq rev app map]. rewrite inv_rounds_1. apply add_key_length; auto; lia || (rewrite inv_bytes_length; apply inv_shift_length).
  - rewrite seq_S, rev_app_distr. cbn [rev app map Nat.add].
    assert (exists r l, map (round_key k) (rev (seq 0 (S n))) = r :: l) as (r & l & E).
    { rewrite seq_S, rev_app_distr. cbn [rev app map]. eauto. }
    rewrite E, inv_rounds_cons, <- E. apply IH; [lia|]. apply inv_mix_length, add_key_length; auto; lia || (rewrite inv_bytes_length; apply inv_shift_length).
Qed.
Lemma main_inv_rounds k n s :
  length k = 16%nat -> (n < 10)%nat -> length s = 16%nat ->
  shift_rows (sub_bytes (main_rounds k n (inv_rounds (map (round_key k) (rev (seq 0 (S n)))) s))) = s.
Proof.
  intros K. revert s. induction n as [|n IH]; intros s N Hs.
  - cbn [seq rev app map]. rewrite inv_rounds_1, main_rounds_0. rewrite add_key_twice by (auto; lia || (rewrite inv_bytes_length; apply inv_shift_length)).
    apply round_inv. assumption.
  - rewrite seq_S, rev_app_distr. cbn [rev app map Nat.add].
    assert (exists r l, map (round_key k) (rev (seq 0 (S n))) = r :: l) as (r & l & E).
    { rewrite seq_S, rev_app_distr. cbn [rev app map]. eauto. }
    assert (length (sx (inv_bytes (inv_shift s)) (round_key k (S n))) = 16%nat) as L
      by (apply add_key_length; auto; lia || (rewrite inv_bytes_length; apply inv_shift_length)).
    rewrite E, inv_rounds_cons, <- E, main_rounds_S. rewrite IH by (auto using inv_mix_length; lia).
    rewrite mix_inv_mix by assumption.
    rewrite add_key_twice by (auto; lia || (rewrite inv_bytes_length; apply inv_shift_length)). apply round_inv. assumption.
Qed.
Lemma aes_decrypt_length k c : length k = 16%nat -> length c = 16%nat -> length (aes_decrypt k c) = 16%nat.
Proof.
  intros K M. rewrite (aes_decrypt_eq k _ (round_key k 10) (map (round_key k) (rev (seq 0 10)))).
  2:{ rewrite round_keys_eq by assumption. rewrite seq_S, rev_app_distr. reflexivity. }
  apply (inv_rounds_length k 9); auto. apply add_key_length; auto.
Qed.
Theorem aes_cipher_decrypt k c : length k = 16%nat -> length c = 16%nat -> aes_128 k (aes_decrypt k c) = c.
Proof.
  intros K M. rewrite (aes_decrypt_eq k _ (round_key k 10) (map (round_key k) (rev (seq 0 10)))).
  2:{ rewrite round_keys_eq by assumption. rewrite seq_S, rev_app_distr. reflexivity. }
  unfold aes_128. rewrite (main_inv_rounds k 9) by (auto; apply add_key_length; auto). apply add_key_twice; auto.
Qed.

(** ** The checksum *)
Lemma crc_bit_add a b : crc_bit (Z.lxor a b) = Z.lxor (crc_bit a) (crc_bit b).
Proof.
  unfold crc_bit. assert (Z.odd (Z.lxor a b) = xorb (Z.odd a) (Z.odd b)) as -> by (rewrite <- !Z.bit0_odd; apply Z.lxor_spec).
  rewrite Z.shiftr_lxor. destruct (Z.odd a), (Z.odd b); cbn [xorb]; try reflexivity.
  - rewrite lxor_swap, Z.lxor_nilpotent, Z.lxor_0_r. reflexivity.
  - rewrite !Z.lxor_assoc. f_equal. apply Z.lxor_comm.
  - rewrite !Z.lxor_assoc. reflexivity.
Qed.
Lemma crc_8_add a b : Nat.iter 8 crc_bit (Z.lxor a b) = Z.lxor (Nat.iter 8 crc_bit a) (Nat.iter 8 crc_bit b).
Proof. cbn [Nat.iter nat_rect]. rewrite !crc_bit_add. reflexivity. Qed.
Lemma crc_bit_range c : 0 <= c < 2 ^ 16 -> 0 <= crc_bit c < 2 ^ 16.
Proof. intros R. pose proof (crc_step_range c false R) as X. unfold crc_step in X. rewrite xorb_false_r in X. exact X. Qed.
Lemma crc_8_range c : 0 <= c < 2 ^ 16 -> 0 <= Nat.iter 8 crc_bit c < 2 ^ 16.
Proof. intros R. cbn [Nat.iter nat_rect]. auto 10 using crc_bit_range. Qed.
Lemma crc_bit_zero c : 0 <= c < 2 ^ 16 -> crc_bit c = 0 -> c = 0.
Proof.
  intros R. unfold crc_bit. rewrite Z.shiftr_div_pow2 by lia. change (2 ^ 1) with 2. pose proof (Zmod_odd c) as O.
  destruct (Z.odd c); intros E; [|lia]. apply Z.lxor_eq in E. lia.
Qed.
Lemma crc_8_inj a b : 0 <= a < 2 ^ 16 -> 0 <= b < 2 ^ 16 -> Nat.iter 8 crc_bit a = Nat.iter 8 crc_bit b -> a = b.
Proof.
  intros A B E. apply Z.lxor_eq. pose proof (lxor_small 16 a b ltac:(lia) A B) as R.
  pose proof (crc_8_add a b) as X. rewrite E, Z.lxor_nilpotent in X. revert X. generalize dependent (Z.lxor a b). intros c R X.
  cbn [Nat.iter nat_rect] in X.
  repeat (apply crc_bit_zero in X; [|auto 10 using crc_bit_range]). assumption.
Qed.
Lemma crc_high h : 0 <= h < 256 -> Nat.iter 8 crc_bit (256 * h) = h.
Proof.
  intros H. assert (forall c, bool_decide (Nat.iter 8 crc_bit (256 * bz c) = bz c) = true) as X by (apply all_bytes_ok; vm_compute; reflexivity).
  specialize (X (zb h)). rewrite bz_zb, Z.mod_small in X by lia. apply bool_decide_eq_true in X. exact X.
Qed.
(** The high byte after eight steps tells the low byte before them. *)
Lemma crc_low x : 0 <= x < 256 -> Nat.iter 8 crc_bit x / 256 = Nat.iter 8 crc_bit 255 / 256 -> x = 255.
Proof.
  intros H E. assert (forall c, implb (bool_decide (Nat.iter 8 crc_bit (bz c) / 256 = Nat.iter 8 crc_bit 255 / 256)) (bool_decide (bz c = 255)) = true) as X
    by (apply all_bytes_ok; vm_compute; reflexivity).
  specialize (X (zb x)). rewrite bz_zb, Z.mod_small in X by lia. rewrite E, bool_decide_true in X by reflexivity.
  apply bool_decide_eq_true in X. exact X.
Qed.
Lemma low_xor h l b : 0 <= h < 256 -> 0 <= l < 256 -> 0 <= b < 256 -> Z.lxor (256 * h + l) b = Z.lxor (256 * h) (Z.lxor l b).
Proof.
  intros H L B. rewrite <- Z.lxor_assoc. f_equal. apply Z.add_nocarry_lxor. apply Z.bits_inj'. intros n N. rewrite Z.land_spec, Z.bits_0.
  destruct (Z.ltb_spec n 8) as [Lt|Ge].
  - change 256 with (2 ^ 8). rewrite Z.mul_comm, Z.mul_pow2_bits_low by lia. reflexivity.
  - destruct (Z.eq_dec l 0) as [->|]; [rewrite Z.bits_0; apply andb_false_r|].
    rewrite (Z.bits_above_log2 l), andb_false_r; [reflexivity|lia|]. apply Z.log2_lt_pow2; [lia|].
    apply Z.lt_le_trans with (2 ^ 8); [lia|]. apply Z.pow_le_mono_r; lia.
Qed.
Lemma xor_255 l b : 0 <= l < 256 -> 0 <= b < 256 -> Z.lxor l b = 255 -> b = 255 - l.
Proof.
  intros L B E. assert (forall c, bool_decide (Z.lxor (bz c) 255 = 255 - bz c) = true) as X by (apply all_bytes_ok; vm_compute; reflexivity).
  specialize (X (zb l)). rewrite bz_zb, Z.mod_small in X by lia. apply bool_decide_eq_true in X.
  rewrite <- X, <- E, <- Z.lxor_assoc, Z.lxor_nilpotent. reflexivity.
Qed.
Lemma crc16_right b x y : crc16 (b ++ [x; y]) = 0xf0b8 -> b ++ [x; y] = with_crc b.
Proof.
  unfold with_crc. pose proof (iso13239_range b) as R. rewrite <- crc16_eq in R |- *. unfold crc16 in *. rewrite fold_left_app.
  set (c := fold_left _ b _) in *. clearbody c. cbn [fold_left]. intros E. f_equal. unfold le2.
  set (h := c / 256). set (l := c mod 256). assert (c = 256 * h + l) as Ec by (subst h l; lia).
  assert (0 <= h < 256 /\ 0 <= l < 256) as (Hh & Hl) by (subst h l; lia).
  pose proof (bz_range x) as Rx. pose proof (bz_range y) as Ry.
  rewrite Ec, low_xor, (crc_8_add (256 * h)), crc_high in E by assumption.
  (* the same with the right bytes *)
  assert (Nat.iter 8 crc_bit (Z.lxor (Nat.iter 8 crc_bit 255) 255) = 0xf0b8) as F by (vm_compute; reflexivity).
  rewrite <- F in E. pose proof (lxor_byte l (bz x) Hl Rx) as Rl.
  pose proof (crc_8_range (Z.lxor l (bz x)) ltac:(lia)) as Rc. pose proof (crc_8_range 255 ltac:(lia)) as Rf.
  set (T := Nat.iter 8 crc_bit (Z.lxor l (bz x))) in *. set (T0 := Nat.iter 8 crc_bit 255) in *.
  apply crc_8_inj in E; [|repeat apply (lxor_small 16); lia|apply (lxor_small 16); lia].
  assert (T / 256 = T0 / 256) as Hi.
  { assert (forall u v, 0 <= u -> 0 <= v < 256 -> Z.lxor u v / 256 = u / 256) as D.
    { intros u v U V. change 256 with (2 ^ 8). rewrite <- !Z.shiftr_div_pow2, Z.shiftr_lxor by lia.
      rewrite (Z.shiftr_div_pow2 v) by lia. rewrite Z.div_small by (change (2 ^ 8) with 256; lia). apply Z.lxor_0_r. }
    assert (Z.lxor T (Z.lxor h (bz y)) / 256 = Z.lxor T0 255 / 256) as Q.
    { rewrite <- E. f_equal. rewrite (Z.lxor_comm h T), Z.lxor_assoc. reflexivity. }
    rewrite !D in Q by (auto; auto using lxor_byte; lia). exact Q. }
  assert (Z.lxor l (bz x) = 255) as X by (apply crc_low; assumption).
  assert (T = T0) as ET by (subst T T0; rewrite X; reflexivity).
  assert (Z.lxor h (bz y) = 255) as Y.
  { assert (Z.lxor T0 (Z.lxor h (bz y)) = Z.lxor T0 255) as Q by (rewrite <- E, ET, (Z.lxor_comm h T0), Z.lxor_assoc; reflexivity).
    apply (f_equal (Z.lxor T0)) in Q. rewrite <- !Z.lxor_assoc, Z.lxor_nilpotent, !Z.lxor_0_l in Q. exact Q. }
  apply xor_255 in X, Y; try assumption.
  f_equal; [|f_equal].
  - apply bz_eq. rewrite bz_zb, X. lia.
  - apply bz_eq. rewrite bz_zb, Y. lia.
Qed.

(** ** The token *)
Lemma payload_length p : wf_press p -> length (payload p) = 14%nat.
Proof. intros (A & _ & B & C). unfold payload. rewrite !app_length, A, B, C. reflexivity. Qed.
Lemma with_crc_length b : length (with_crc b) = (length b + 2)%nat.
Proof. unfold with_crc. rewrite app_length. reflexivity. Qed.
Lemma block_length p : wf_press p -> length (with_crc (payload p)) = 16%nat.
Proof. intros W. rewrite with_crc_length, payload_length; auto. Qed.
Lemma split_typed key pub p :
  length key = 16%nat -> wf_press p -> split_otp (typed_otp key pub p) = Some (pub, aes_128 key (with_crc (payload p))).
Proof.
  intros K W. unfold split_otp, typed_otp. set (o := aes_128 _ _). assert (length (to_modhex o) = 32%nat) as L.
  { rewrite to_modhex_length. unfold o. rewrite aes_128_length; auto using block_length. }
  rewrite app_length, L. rewrite decide_False by lia. replace (length (to_modhex pub) + 32 - 32)%nat with (length (to_modhex pub)) by lia.
  rewrite take_app, drop_app, !modhex_to. reflexivity.
Qed.
Lemma open_typed key p :
  length key = 16%nat -> wf_press p ->
  open_token key (aes_128 key (with_crc (payload p))) =
    Some (Token (zb (pr_session p + 32768 * Z.b2z (pr_caps p))) (zb ((pr_session p + 32768 * Z.b2z (pr_caps p)) / 256)) (pr_use p)).
Proof.
  intros K W. unfold open_token. rewrite aes_decrypt_cipher by auto using block_length.
  rewrite decide_True by (split; [apply block_length; assumption|apply crc16_with_crc]).
  destruct p as [pv se ca ti us ra]. destruct W as (A & _ & B & C). cbn [pr_private pr_session pr_caps pr_time pr_use pr_random] in *.
  unfold with_crc, payload. cbn [pr_private pr_session pr_caps pr_time pr_use pr_random].
  destruct pv as [|? [|? [|? [|? [|? [|? [|? ?]]]]]]]; try discriminate. destruct ti as [|? [|? [|? [|? ?]]]]; try discriminate. reflexivity.
Qed.

Lemma some_pair {A B} (a a' : A) (b b' : B) : Some (a, b) = Some (a', b') -> a = a' /\ b = b'.
Proof. intros [= -> ->]. auto. Qed.
Section Token.
Context (hash : Z -> bytes -> bytes -> bytes) (cmp : bytes -> bytes -> bool).
Notation lib := (yubico hash cmp).
Lemma typed_is_otp key pub p :
  length key = 16%nat -> wf_press p -> yk_otp (A := lib) key pub (typed_otp key pub p) (pr_session p).
Proof.
  intros K W. exists (aes_128 key (with_crc (payload p))). eexists. split; [apply split_typed; assumption|].
  split; [apply open_typed; assumption|]. cbn [tk_ctr_lo tk_ctr_hi]. destruct W as (_ & R & _). rewrite !bz_zb. destruct (pr_caps p); cbn [Z.b2z]; lia.
Qed.
Lemma otp_is_typed key pub otp ctr :
  length key = 16%nat -> yk_otp (A := lib) key pub otp ctr -> exists p, wf_press p /\ pr_session p = ctr /\ otp = typed_otp key pub p.
Proof.
  intros K (o & t & E & O & ->). cbn [yk_parse yk_token yubico] in E, O.
  unfold split_otp in E. case_decide as L; [discriminate|].
  destruct (modhex (take _ otp)) as [q|] eqn:E1; [|discriminate]. destruct (modhex (drop _ otp)) as [o'|] eqn:E2; [|discriminate].
  injection E as -> ->. apply modhex_only in E1, E2.
  assert (length o = 16%nat) as Lo.
  { apply (f_equal length) in E2. rewrite to_modhex_length, drop_length in E2. lia. }
  assert (otp = to_modhex pub ++ to_modhex o) as -> by (rewrite <- E1, <- E2; symmetry; apply take_drop). clear E1 E2 L.
  unfold open_token in O. case_decide as D; [|discriminate]. destruct D as (L & C). injection O as <-.
  set (d := aes_decrypt key o) in *. assert (o = aes_128 key d) as Eo by (symmetry; apply aes_cipher_decrypt; assumption).
  clearbody d. subst o. destruct d as [|b0 [|b1 [|b2 [|b3 [|b4 [|b5 [|b6 [|b7 [|b8 [|b9 [|b10 [|b11 [|b12 [|b13 [|b14 [|b15 [|? ?]]]]]]]]]]]]]]]]]; try discriminate.
  clear L. pose proof (bz_range b6) as R6. pose proof (bz_range b7) as R7.
  apply (crc16_right [b0; b1; b2; b3; b4; b5; b6; b7; b8; b9; b10; b11; b12; b13]) in C.
  set (v := bz b6 + 256 * bz b7).
  exists (Press [b0; b1; b2; b3; b4; b5] (v mod 2 ^ 15) (bool_decide (32768 <= v)) [b8; b9; b10] b11 [b12; b13]).
  cbn [pr_session nth tk_ctr_lo tk_ctr_hi]. split; [|split; [reflexivity|]].
  { unfold wf_press. cbn [pr_private pr_session pr_time pr_random]. split; [reflexivity|]. split; [apply Z.mod_pos_bound; lia|split; reflexivity]. }
  unfold typed_otp. apply (f_equal (fun z => to_modhex pub ++ to_modhex (aes_128 key z))). cbn [app] in C. rewrite C. apply (f_equal with_crc). unfold payload.
  cbn [pr_private pr_session pr_caps pr_time pr_use pr_random app le2].
  assert (v mod 2 ^ 15 + 32768 * Z.b2z (bool_decide (32768 <= v)) = v) as ->.
  { case_bool_decide; cbn [Z.b2z]; subst v; lia. }
  replace (zb v) with b6 by (apply bz_eq; rewrite bz_zb; subst v; lia).
  replace (zb (v / 256)) with b7 by (apply bz_eq; rewrite bz_zb; subst v; lia). reflexivity.
Qed.
Lemma typed_otp_inj key pub pub' p p' :
  length key = 16%nat -> wf_press p -> wf_press p' -> typed_otp key pub p = typed_otp key pub' p' -> pub = pub' /\ p = p'.
Proof.
  intros K W W' E. pose proof (split_typed key pub p K W) as S. rewrite E, split_typed in S by assumption. apply some_pair in S as (-> & S). split; [reflexivity|].
  apply (f_equal (aes_decrypt key)) in S. rewrite !aes_decrypt_cipher in S by auto using block_length.
  assert (payload p' = payload p) as P.
  { pose proof (payload_length p W) as L. pose proof (payload_length p' W') as L'. unfold with_crc in S.
    apply (f_equal (take 14)) in S. rewrite (take_app_alt (payload p)), (take_app_alt (payload p')) in S by congruence. exact S. }
  destruct p as [pv se ca ti us ra], p' as [pv' se' ca' ti' us' ra']. destruct W as (A & Rs & B & C), W' as (A' & Rs' & B' & C').
  unfold payload in P. cbn [pr_private pr_session pr_caps pr_time pr_use pr_random] in *.
  apply app_inj_1 in P as (-> & P); [|congruence]. cbn [le2 app] in P. injection P as P1 P2 P.
  apply app_inj_1 in P as (-> & P); [|congruence]. injection P as -> ->.
  apply (f_equal bz) in P1, P2. rewrite !bz_zb in P1, P2.
  assert (se + 32768 * Z.b2z ca = se' + 32768 * Z.b2z ca') as Q.
  { destruct ca, ca'; cbn [Z.b2z] in *; lia. }
  destruct ca, ca'; cbn [Z.b2z] in Q; [|lia|lia|]; f_equal; lia.
Qed.
End Token.

(** AES decryption undoes FIPS 197's cipher, and the library reads what a YubiKey types. *)
From Verif Require Export SpecAes Aes.
From Verif Require Import BytesFacts Base32Facts.
From Coq Require Import Ring.
Local Open Scope Z_scope.

(** ** Bytes under exclusive or *)
Lemma bx_eq a b : bx a b = xorb_ a b.
Proof. reflexivity. Qed.
Lemma sx_eq a b : sx a b = zip_with xorb_ a b.
Proof. reflexivity. Qed.
Lemma lxor_byte a b : 0 <= a < 256 -> 0 <= b < 256 -> 0 <= Z.lxor a b < 256.
Proof.
  intros A B. split; [apply Z.lxor_nonneg; lia|]. destruct (Z.eq_dec (Z.lxor a b) 0); [lia|].
  change 256 with (2 ^ 8). apply Z.log2_lt_pow2; [pose proof (proj2 (Z.lxor_nonneg a b)); lia|].
  pose proof (Z.log2_lxor a b ltac:(lia) ltac:(lia)).
  assert (forall z, 0 <= z < 256 -> Z.log2 z < 8) as L.
  { intros z Hz. destruct (Z.eq_dec z 0) as [->|]; [reflexivity|]. apply Z.log2_lt_pow2; lia. }
  pose proof (L a A). pose proof (L b B). lia.
Qed.
Lemma bz_bx a b : bz (bx a b) = Z.lxor (bz a) (bz b).
Proof. unfold bx. rewrite bz_zb, Z.mod_small; auto. apply lxor_byte; apply bz_range. Qed.
Lemma bz_eq a b : bz a = bz b -> a = b.
Proof. intros E. rewrite <- (zb_bz a), <- (zb_bz b). congruence. Qed.
Lemma bx_comm a b : bx a b = bx b a.
Proof. unfold bx. f_equal. apply Z.lxor_comm. Qed.
Lemma bx_assoc a b c : bx a (bx b c) = bx (bx a b) c.
Proof. apply bz_eq. rewrite !bz_bx. symmetry. apply Z.lxor_assoc. Qed.
Lemma bx_self a : bx a a = x00.
Proof. apply bz_eq. rewrite bz_bx, Z.lxor_nilpotent. reflexivity. Qed.
Lemma bx_0_r a : bx a x00 = a.
Proof. apply bz_eq. rewrite bz_bx. change (bz x00) with 0. apply Z.lxor_0_r. Qed.
Lemma bx_0_l a : bx x00 a = a.
Proof. rewrite bx_comm. apply bx_0_r. Qed.
Lemma bx_cancel a b : bx (bx a b) b = a.
Proof. rewrite <- bx_assoc, bx_self. apply bx_0_r. Qed.
Lemma bx_swap a b c d : bx (bx a b) (bx c d) = bx (bx a c) (bx b d).
Proof. rewrite <- !bx_assoc. f_equal. rewrite !bx_assoc. f_equal. apply bx_comm. Qed.
Lemma sx_cancel s k : length s = length k -> sx (sx s k) k = s.
Proof.
  revert k. induction s as [|a s IH]; intros [|b k]; cbn; try discriminate; auto.
  intros [= E]. unfold sx in *. rewrite bx_cancel, IH by assumption. reflexivity.
Qed.
Lemma sx_length s k : length s = length k -> length (sx s k) = length s.
Proof. intros E. unfold sx. rewrite zip_with_length, E. lia. Qed.

(** ** The field *)
Lemma xtime_bits a : 0 <= a < 256 -> xtime a = Z.lxor (2 * a) (if Z.testbit a 7 then 0x11b else 0).
Proof.
  intros R. assert (forall c, bool_decide (xtime (bz c) = Z.lxor (2 * bz c) (if Z.testbit (bz c) 7 then 0x11b else 0)) = true) as X
    by (apply all_bytes_ok; vm_compute; reflexivity).
  specialize (X (zb a)). rewrite bz_zb, Z.mod_small in X by lia. apply bool_decide_eq_true in X. exact X.
Qed.
Lemma xtime_range a : 0 <= a < 256 -> 0 <= xtime a < 256.
Proof.
  intros R. assert (forall c, bool_decide (0 <= xtime (bz c) < 256) = true) as X by (apply all_bytes_ok; vm_compute; reflexivity).
  specialize (X (zb a)). rewrite bz_zb, Z.mod_small in X by lia. apply bool_decide_eq_true in X. exact X.
Qed.
Lemma lxor_swap a b c d : Z.lxor (Z.lxor a b) (Z.lxor c d) = Z.lxor (Z.lxor a c) (Z.lxor b d).
Proof. rewrite !Z.lxor_assoc. f_equal. rewrite <- !Z.lxor_assoc. f_equal. apply Z.lxor_comm. Qed.
Lemma xtime_add a b : 0 <= a < 256 -> 0 <= b < 256 -> xtime (Z.lxor a b) = Z.lxor (xtime a) (xtime b).
Proof.
  intros A B. rewrite !xtime_bits by auto using lxor_byte. rewrite lxor_swap. f_equal.
  - rewrite !(Z.mul_comm 2). change 2 with (2 ^ 1). rewrite <- !Z.shiftl_mul_pow2 by lia. apply Z.shiftl_lxor.
  - rewrite Z.lxor_spec. destruct (Z.testbit a 7), (Z.testbit b 7); reflexivity.
Qed.
(** The multiples the inverse of MixColumns uses. *)
Definition times (k : Z) (y : byte) : byte :=
  zb (let y1 := bz y in let y2 := xtime y1 in let y4 := xtime y2 in let y8 := xtime y4 in
      Z.lxor y8 (if decide (k = 9) then y1 else if decide (k = 11) then Z.lxor y2 y1 else if decide (k = 13) then Z.lxor y4 y1 else Z.lxor y4 y2)).
Lemma times_add k a b : times k (bx a b) = bx (times k a) (times k b).
Proof.
  pose proof (bz_range a) as A. pose proof (bz_range b) as B. apply bz_eq. rewrite bz_bx. unfold times. cbv zeta.
  pose proof (xtime_range _ A) as A2. pose proof (xtime_range _ B) as B2.
  pose proof (xtime_range _ A2) as A4. pose proof (xtime_range _ B2) as B4.
  pose proof (xtime_range _ A4) as A8. pose proof (xtime_range _ B4) as B8.
  rewrite !bz_zb, bz_bx. rewrite (xtime_add (bz a)), (xtime_add (xtime (bz a))), (xtime_add (xtime (xtime (bz a)))) by assumption.
  rewrite !Z.mod_small.
  - symmetry. etransitivity; [apply lxor_swap|]. symmetry. apply f_equal. destruct (decide (k = 9)); [reflexivity|]. destruct (decide (k = 11)); [apply lxor_swap|]. destruct (decide (k = 13)); apply lxor_swap.
  - repeat case_decide; auto using lxor_byte.
  - repeat case_decide; auto using lxor_byte.
  - repeat case_decide; repeat apply lxor_byte; auto using lxor_byte.
Qed.
Lemma gmul_2_add a b : gmul x02 (bx a b) = bx (gmul x02 a) (gmul x02 b).
Proof.
  assert (forall c, gmul x02 c = zb (xtime (bz c))) as X.
  { intros c. apply (bool_decide_eq_true (gmul x02 c = zb (xtime (bz c)))). revert c. apply all_bytes_ok. vm_compute. reflexivity. }
  rewrite !X, bz_bx. pose proof (bz_range a) as A. pose proof (bz_range b) as B. rewrite xtime_add by assumption.
  apply bz_eq. rewrite bz_bx, !bz_zb, !Z.mod_small; auto using lxor_byte, xtime_range.
Qed.
Definition four (a b c d : byte) : byte := bx (bx a b) (bx c d).
Lemma inv_column_eq a b c d :
  inv_column [a; b; c; d] =
  [four (times 14 a) (times 11 b) (times 13 c) (times 9 d); four (times 9 a) (times 14 b) (times 11 c) (times 13 d);
   four (times 13 a) (times 9 b) (times 14 c) (times 11 d); four (times 11 a) (times 13 b) (times 9 c) (times 14 d)].
Proof.
  unfold inv_column. cbv zeta. unfold four.
  pose proof (bz_range a) as Ra. pose proof (bz_range b) as Rb. pose proof (bz_range c) as Rc. pose proof (bz_range d) as Rd.
  assert (forall k y, 0 <= (let y1 := bz y in let y2 := xtime y1 in let y4 := xtime y2 in let y8 := xtime y4 in
      Z.lxor y8 (if decide (k = 9) then y1 else if decide (k = 11) then Z.lxor y2 y1 else if decide (k = 13) then Z.lxor y4 y1 else Z.lxor y4 y2)) < 256) as R.
  { intros k y. cbv zeta. pose proof (bz_range y). repeat case_decide; auto 10 using lxor_byte, xtime_range. }
  assert (forall p q r s k1 k2 k3 k4, zb (Z.lxor (Z.lxor
      ((fun k y => let y1 := bz y in let y2 := xtime y1 in let y4 := xtime y2 in let y8 := xtime y4 in
      Z.lxor y8 (if decide (k = 9) then y1 else if decide (k = 11) then Z.lxor y2 y1 else if decide (k = 13) then Z.lxor y4 y1 else Z.lxor y4 y2)) k1 p)
      ((fun k y => let y1 := bz y in let y2 := xtime y1 in let y4 := xtime y2 in let y8 := xtime y4 in
      Z.lxor y8 (if decide (k = 9) then y1 else if decide (k = 11) then Z.lxor y2 y1 else if decide (k = 13) then Z.lxor y4 y1 else Z.lxor y4 y2)) k2 q))
      (Z.lxor ((fun k y => let y1 := bz y in let y2 := xtime y1 in let y4 := xtime y2 in let y8 := xtime y4 in
      Z.lxor y8 (if decide (k = 9) then y1 else if decide (k = 11) then Z.lxor y2 y1 else if decide (k = 13) then Z.lxor y4 y1 else Z.lxor y4 y2)) k3 r)
      ((fun k y => let y1 := bz y in let y2 := xtime y1 in let y4 := xtime y2 in let y8 := xtime y4 in
      Z.lxor y8 (if decide (k = 9) then y1 else if decide (k = 11) then Z.lxor y2 y1 else if decide (k = 13) then Z.lxor y4 y1 else Z.lxor y4 y2)) k4 s)))
    = bx (bx (times k1 p) (times k2 q)) (bx (times k3 r) (times k4 s))) as X.
  { intros. apply bz_eq. rewrite !bz_bx. unfold times. rewrite !bz_zb.
    rewrite !Z.mod_small; [reflexivity|apply R..|]. cbv beta. apply lxor_byte; apply lxor_byte; apply R. }
  repeat f_equal; apply X.
Qed.
(** One column of MixColumns, and back. *)
Definition mix_column (a b c d : byte) : bytes :=
  [four (gmul x02 a) (gmul x03 b) c d; four (gmul x02 b) (gmul x03 c) d a;
   four (gmul x02 c) (gmul x03 d) a b; four (gmul x02 d) (gmul x03 a) b c].
Lemma times_four k a b c d : times k (four a b c d) = four (times k a) (times k b) (times k c) (times k d).
Proof. unfold four. rewrite !times_add. reflexivity. Qed.
Definition unit_row (i j k l : Z) (y : byte) : byte * byte * byte * byte :=
  (four (times i (gmul x02 y)) (times j y) (times k y) (times l (gmul x03 y)),
   four (times i (gmul x03 y)) (times j (gmul x02 y)) (times k y) (times l y),
   four (times i y) (times j (gmul x03 y)) (times k (gmul x02 y)) (times l y),
   four (times i y) (times j y) (times k (gmul x03 y)) (times l (gmul x02 y))).
Lemma unit_rows y :
  unit_row 14 11 13 9 y = (y, x00, x00, x00) /\ unit_row 9 14 11 13 y = (x00, y, x00, x00) /\
  unit_row 13 9 14 11 y = (x00, x00, y, x00) /\ unit_row 11 13 9 14 y = (x00, x00, x00, y).
Proof.
  apply (bool_decide_eq_true (unit_row 14 11 13 9 y = (y, x00, x00, x00) /\ unit_row 9 14 11 13 y = (x00, y, x00, x00) /\
    unit_row 13 9 14 11 y = (x00, x00, y, x00) /\ unit_row 11 13 9 14 y = (x00, x00, x00, y))).
  revert y. apply all_bytes_ok. vm_compute. reflexivity.
Qed.
Lemma four_1 y : four y x00 x00 x00 = y /\ four x00 y x00 x00 = y /\ four x00 x00 y x00 = y /\ four x00 x00 x00 y = y.
Proof. unfold four. rewrite !bx_0_r, !bx_0_l. split_and!; reflexivity. Qed.
Lemma inv_column_mix a b c d : inv_column (mix_column a b c d) = [a; b; c; d].
Proof.
  unfold mix_column. rewrite inv_column_eq, !times_four.
  assert (forall i j k l,
    four (four (times i (gmul x02 a)) (times i (gmul x03 b)) (times i c) (times i d))
         (four (times j (gmul x02 b)) (times j (gmul x03 c)) (times j d) (times j a))
         (four (times k (gmul x02 c)) (times k (gmul x03 d)) (times k a) (times k b))
         (four (times l (gmul x02 d)) (times l (gmul x03 a)) (times l b) (times l c)) =
    four (fst (fst (fst (unit_row i j k l a)))) (snd (fst (fst (unit_row i j k l b))))
         (snd (fst (unit_row i j k l c))) (snd (unit_row i j k l d))) as X.
  { intros. unfold unit_row. cbn [fst snd].
    unfold four. apply bz_eq. rewrite !bz_bx. apply Z.bits_inj'. intros n _. rewrite !Z.lxor_spec.
    repeat match goal with |- context [Z.testbit ?x n] => generalize (Z.testbit x n); intros ? end. ring. }
  rewrite !X.
  destruct (unit_rows a) as (A1 & A2 & A3 & A4). destruct (unit_rows b) as (B1 & B2 & B3 & B4).
  destruct (unit_rows c) as (C1 & C2 & C3 & C4). destruct (unit_rows d) as (D1 & D2 & D3 & D4).
  rewrite A1, A2, A3, A4, B1, B2, B3, B4, C1, C2, C3, C4, D1, D2, D3, D4. cbn [fst snd].
  destruct (four_1 a) as (-> & _). destruct (four_1 b) as (_ & -> & _). destruct (four_1 c) as (_ & _ & -> & _).
  destruct (four_1 d) as (_ & _ & _ & ->). reflexivity.
Qed.

(** ** States *)
Ltac sixteen s H :=
  destruct s as [|?s0 [|?s1 [|?s2 [|?s3 [|?s4 [|?s5 [|?s6 [|?s7 [|?s8 [|?s9 [|?s10 [|?s11 [|?s12 [|?s13 [|?s14 [|?s15 [|? ?]]]]]]]]]]]]]]]]]; cbn in H; try discriminate; clear H.
Lemma inv_mix_app a b c d :
  length a = 4%nat -> length b = 4%nat -> length c = 4%nat ->
  inv_mix (a ++ b ++ c ++ d) = inv_column a ++ inv_column b ++ inv_column c ++ inv_column d.
Proof.
  intros A B C.
  destruct a as [|? [|? [|? [|? [|? ?]]]]]; try discriminate. destruct b as [|? [|? [|? [|? [|? ?]]]]]; try discriminate.
  destruct c as [|? [|? [|? [|? [|? ?]]]]]; try discriminate. reflexivity.
Qed.
Lemma inv_mix_mix s : length s = 16%nat -> inv_mix (mix_columns s) = s.
Proof.
  intros H. sixteen s H.
  assert (mix_columns [s0; s1; s2; s3; s4; s5; s6; s7; s8; s9; s10; s11; s12; s13; s14; s15] =
    mix_column s0 s1 s2 s3 ++ mix_column s4 s5 s6 s7 ++ mix_column s8 s9 s10 s11 ++ mix_column s12 s13 s14 s15) as ->.
  { cbv [mix_columns by_column at_ flat_map map app nth Nat.add Nat.mul Nat.modulo Nat.divmod Nat.sub fst snd mix_column four]. reflexivity. }
  rewrite inv_mix_app by reflexivity.
  rewrite !inv_column_mix. reflexivity.
Qed.
Lemma inv_shift_shift s : length s = 16%nat -> inv_shift (shift_rows s) = s.
Proof. intros H. sixteen s H. reflexivity. Qed.
Lemma sub_byte_table b : sub_byte b = subst aes_sbox b.
Proof. apply (bool_decide_eq_true (sub_byte b = subst aes_sbox b)). revert b. apply all_bytes_ok. vm_compute. reflexivity. Qed.
Lemma inv_sub b : subst aes_inv_sbox (subst aes_sbox b) = b.
Proof. apply (bool_decide_eq_true (subst aes_inv_sbox (subst aes_sbox b) = b)). revert b. apply all_bytes_ok. vm_compute. reflexivity. Qed.
Lemma inv_bytes_sub s : inv_bytes (sub_bytes s) = s.
Proof. unfold inv_bytes, sub_bytes. rewrite map_map. rewrite <- (map_id s) at 2. apply map_ext. intros b. rewrite sub_byte_table. apply inv_sub. Qed.
Lemma shift_length s : length (shift_rows s) = 16%nat.
Proof. reflexivity. Qed.
Lemma mix_length s : length (mix_columns s) = 16%nat.
Proof. reflexivity. Qed.
Lemma sub_length s : length (sub_bytes s) = length s.
Proof. apply map_length. Qed.
Lemma inv_round s : length s = 16%nat -> inv_bytes (inv_shift (shift_rows (sub_bytes s))) = s.
Proof. intros H. rewrite inv_shift_shift by (rewrite sub_length; assumption). apply inv_bytes_sub. Qed.

(** ** Round keys *)
Lemma key_words_S k n :
  key_words k (S n) = key_words k n ++ [sx (nth n (key_words k n) [])
    (let t := nth (n + 3) (key_words k n) [] in
     if decide ((n + 4) mod 4 = 0)%nat then sx (sub_bytes (rot_word t)) (rcon ((n + 4) / 4)) else t)].
Proof. cbn [key_words]. rewrite Nat.add_sub. replace (n + 4 - 1)%nat with (n + 3)%nat by lia. reflexivity. Qed.
Lemma key_words_length k n : length (key_words k n) = (n + 4)%nat.
Proof. induction n as [|n IH]; [reflexivity|]. rewrite key_words_S, app_length, IH. cbn. lia. Qed.
(** Four words at a time. *)
Lemma key_words_4 k r ws a b c d :
  key_words k (4 * r) = ws ++ [a; b; c; d] ->
  key_words k (4 * S r) = (ws ++ [a; b; c; d]) ++
    (let e := sx a (sx (sub_bytes (rot_word d)) (rcon (S r))) in let f := sx b e in let g := sx c f in let h := sx d g in [e; f; g; h]).
Proof.
  intros E. pose proof (key_words_length k (4 * r)) as Len. rewrite E, app_length in Len. cbn [length] in Len.
  assert (length ws = 4 * r)%nat as W by lia.
  assert (forall (l l' : list bytes) n, length l = n -> forall m, nth (n + m) (l ++ l') [] = nth m l' []) as N.
  { intros l l' n <- m. rewrite app_nth2_plus. reflexivity. }
  assert (forall n m, (n + m) mod 4 = (n mod 4 + m mod 4) mod 4)%nat as M by (intros; apply Nat.add_mod; lia).
  replace (4 * S r)%nat with (S (S (S (S (4 * r))))) by lia.
  rewrite key_words_S. rewrite (key_words_S k (S (S (4 * r)))), (key_words_S k (S (4 * r))), (key_words_S k (4 * r)), E. cbv zeta.
  rewrite (decide_True (P := ((4 * r + 4) mod 4 = 0)%nat)) by (rewrite (Nat.add_comm (4 * r)), (Nat.mul_comm 4), Nat.mod_add; [reflexivity|lia]).
  replace ((4 * r + 4) / 4)%nat with (S r) by (replace (4 * r + 4)%nat with (S r * 4)%nat by lia; rewrite Nat.div_mul; lia).
  assert (forall j, (j < 4)%nat -> (0 < j)%nat -> ~ ((j + 4 * r + 4) mod 4 = 0)%nat) as ND.
  { intros j J1 J2. replace (j + 4 * r + 4)%nat with (j + (S r) * 4)%nat by lia. rewrite Nat.mod_add by lia. rewrite Nat.mod_small; lia. }
  rewrite (decide_False (P := ((S (4 * r) + 4) mod 4 = 0)%nat)) by (apply (ND 1%nat); lia).
  rewrite (decide_False (P := ((S (S (4 * r)) + 4) mod 4 = 0)%nat)) by (apply (ND 2%nat); lia).
  rewrite (decide_False (P := ((S (S (S (4 * r))) + 4) mod 4 = 0)%nat)) by (apply (ND 3%nat); lia).
  rewrite <- !app_assoc. cbn [app].
  replace (S (S (S (4 * r))) + 3)%nat with (4 * r + 6)%nat by lia. replace (S (S (4 * r)) + 3)%nat with (4 * r + 5)%nat by lia.
  replace (S (4 * r) + 3)%nat with (4 * r + 4)%nat by lia. replace (S (S (S (4 * r)))) with (4 * r + 3)%nat by lia.
  replace (S (S (4 * r))) with (4 * r + 2)%nat by lia. replace (S (4 * r)) with (4 * r + 1)%nat by lia.
  replace (nth (4 * r) (ws ++ [a; b; c; d]) []) with a by (rewrite <- (Nat.add_0_r (4 * r)), (N _ _ _ W); reflexivity).
  repeat (rewrite (N ws _ _ W); cbn [nth]). reflexivity.
Qed.
Lemma key_words_prefix k n m : (n <= m)%nat -> exists l, key_words k m = key_words k n ++ l.
Proof.
  induction 1 as [|m _ (l & IH)]; [exists []; rewrite app_nil_r; reflexivity|].
  rewrite key_words_S, IH, <- app_assoc. eauto.
Qed.
Definition word (w : bytes) : Prop := length w = 4%nat.
Lemma word_sx a b : word a -> word b -> word (sx a b).
Proof. unfold word. intros A B. rewrite sx_length; congruence. Qed.
Lemma word_sub w : word w -> word (sub_bytes (rot_word w)).
Proof. unfold word. rewrite sub_length. destruct w; cbn; [discriminate|]. rewrite app_length. cbn. lia. Qed.
Lemma key_words_at k r :
  length k = 16%nat ->
  exists ws a b c d, key_words k (4 * r) = ws ++ [a; b; c; d] /\ length ws = (4 * r)%nat /\ word a /\ word b /\ word c /\ word d.
Proof.
  intros K. induction r as [|r (ws & a & b & c & d & E & L & A & B & C & D)].
  - exists [], (take 4 k), (take 4 (drop 4 k)), (take 4 (drop 8 k)), (drop 12 k). unfold word.
    rewrite !take_length, !drop_length, K. split_and!; reflexivity.
  - pose proof (key_words_4 _ _ _ _ _ _ _ E) as E'. cbv zeta in E'.
    assert (word (sx a (sx (sub_bytes (rot_word d)) (rcon (S r))))) by (repeat apply word_sx; auto using word_sub; reflexivity).
    do 5 eexists. split; [exact E'|]. rewrite app_length, L. cbn [length]. split; [lia|]. split_and!; auto 10 using word_sx.
Qed.
Lemma round_key_at k r ws a b c d :
  (r <= 10)%nat -> key_words k (4 * r) = ws ++ [a; b; c; d] -> length ws = (4 * r)%nat -> round_key k r = a ++ b ++ c ++ d.
Proof.
  intros R E L. unfold round_key. destruct (key_words_prefix k (4 * r) 40) as (l & ->); [lia|]. rewrite E, <- app_assoc, <- L, drop_app.
  cbn [app take concat]. rewrite app_nil_r. reflexivity.
Qed.
Lemma next_key_round k r rc :
  length k = 16%nat -> (r < 10)%nat -> rcon (S r) = [rc; x00; x00; x00] -> next_key rc (round_key k r) = round_key k (S r).
Proof.
  intros K R RC. destruct (key_words_at k r K) as (ws & a & b & c & d & E & L & A & B & C & D).
  pose proof (key_words_4 _ _ _ _ _ _ _ E) as E'. cbv zeta in E'.
  rewrite (round_key_at k r _ _ _ _ _ ltac:(lia) E L).
  rewrite (round_key_at k (S r) _ _ _ _ _ ltac:(lia) E') by (rewrite app_length, L; cbn [length]; lia). rewrite RC.
  unfold word in *.
  destruct a as [|a0 [|a1 [|a2 [|a3 [|? ?]]]]]; try discriminate. destruct b as [|b0 [|b1 [|b2 [|b3 [|? ?]]]]]; try discriminate.
  destruct c as [|c0 [|c1 [|c2 [|c3 [|? ?]]]]]; try discriminate. destruct d as [|d0 [|d1 [|d2 [|d3 [|? ?]]]]]; try discriminate.
  unfold next_key. cbn [app]. unfold sx, sub_bytes, rot_word. cbn [app map zip_with]. rewrite !sub_byte_table, !bx_0_r.
  change xorb_ with bx. rewrite (bx_assoc a0). reflexivity.
Qed.
Lemma round_key_0 k : length k = 16%nat -> round_key k 0 = k.
Proof. intros K. sixteen k K. reflexivity. Qed.
Lemma round_keys_fold k rcs r acc :
  length k = 16%nat -> Forall2 (fun i rc => rcon i = [rc; x00; x00; x00]) (seq (S r) (length rcs)) rcs -> (r + length rcs <= 10)%nat ->
  hd [] acc = round_key k r ->
  fold_left (fun ks rc => next_key rc (hd [] ks) :: ks) rcs acc = map (round_key k) (rev (seq (S r) (length rcs))) ++ acc.
Proof.
  intros K. revert r acc. induction rcs as [|rc rcs IH]; intros r acc F R H; [reflexivity|].
  cbn [length seq] in F. inversion F as [|? ? ? ? E F']. subst. cbn [length] in R. cbn [fold_left length seq rev].
  rewrite H, (next_key_round k r rc) by (auto; lia). rewrite (IH (S r)) by (auto; lia). rewrite map_app, <- app_assoc. reflexivity.
Qed.
Lemma round_keys_eq k : length k = 16%nat -> round_keys k = map (round_key k) (rev (seq 0 11)).
Proof.
  intros K. unfold round_keys. rewrite (round_keys_fold k _ 0).
  - change (rev (seq 0 11)) with (rev (seq 1 10) ++ [0%nat]). rewrite map_app. cbn [map]. rewrite round_key_0 by assumption. reflexivity.
  - assumption.
  - cbn [length seq]. repeat (constructor; [vm_compute; reflexivity|]). constructor.
  - cbn. lia.
  - rewrite round_key_0 by assumption. reflexivity.
Qed.
Lemma round_key_length k r : length k = 16%nat -> (r <= 10)%nat -> length (round_key k r) = 16%nat.
Proof.
  intros K R. destruct (key_words_at k r K) as (ws & a & b & c & d & E & L & A & B & C & D). unfold word in *.
  rewrite (round_key_at k r _ _ _ _ _ R E L), !app_length, A, B, C, D. reflexivity.
Qed.

(** ** The cipher *)
Lemma add_key_length k r s : length k = 16%nat -> (r <= 10)%nat -> length s = 16%nat -> length (sx s (round_key k r)) = 16%nat.
Proof. intros K R S. rewrite sx_length; [assumption|]. rewrite round_key_length; assumption. Qed.
Lemma add_key_twice k r s : length k = 16%nat -> (r <= 10)%nat -> length s = 16%nat -> sx (sx s (round_key k r)) (round_key k r) = s.
Proof. intros K R S. apply sx_cancel. rewrite round_key_length; assumption. Qed.
Lemma main_rounds_length k n m : length k = 16%nat -> (n <= 10)%nat -> length m = 16%nat -> length (main_rounds k n m) = 16%nat.
Proof. intros K N M. destruct n as [|n]; cbn [main_rounds]; apply add_key_length; auto using mix_length. Qed.
Lemma inv_rounds_1 k s : inv_rounds [k] s = sx (inv_bytes (inv_shift s)) k.
Proof. reflexivity. Qed.
Lemma inv_rounds_cons k r l s : inv_rounds (k :: r :: l) s = inv_rounds (r :: l) (inv_mix (sx (inv_bytes (inv_shift s)) k)).
Proof. reflexivity. Qed.
Lemma main_rounds_0 k s : main_rounds k 0 s = sx s (round_key k 0).
Proof. reflexivity. Qed.
Lemma main_rounds_S k n s : main_rounds k (S n) s = sx (mix_columns (shift_rows (sub_bytes (main_rounds k n s)))) (round_key k (S n)).
Proof. reflexivity. Qed.
Lemma aes_decrypt_eq k c k0 ks : round_keys k = k0 :: ks -> aes_decrypt k c = inv_rounds ks (sx c k0).
Proof. intros E. unfold aes_decrypt. rewrite E. reflexivity. Qed.
Lemma inv_rounds_main k n m :
  length k = 16%nat -> (n < 10)%nat -> length m = 16%nat ->
  inv_rounds (map (round_key k) (rev (seq 0 (S n)))) (shift_rows (sub_bytes (main_rounds k n m))) = m.
Proof.
  intros K N M. induction n as [|n IH].
  - cbn [seq rev app map]. rewrite inv_rounds_1, main_rounds_0.
    rewrite inv_round by (apply add_key_length; auto; lia). apply add_key_twice; auto. lia.
  - rewrite seq_S, rev_app_distr. cbn [rev app map Nat.add].
    assert (exists r l, map (round_key k) (rev (seq 0 (S n))) = r :: l) as (r & l & E).
    { rewrite seq_S, rev_app_distr. cbn [rev app map]. eauto. }
    specialize (IH ltac:(lia)). rewrite E in IH |- *. rewrite inv_rounds_cons, main_rounds_S.
    rewrite inv_round by (apply add_key_length; auto using mix_length; lia).
    rewrite add_key_twice by (auto using mix_length; lia). rewrite inv_mix_mix by auto using shift_length. exact IH.
Qed.
Theorem aes_decrypt_cipher k m : length k = 16%nat -> length m = 16%nat -> aes_decrypt k (aes_128 k m) = m.
Proof.
  intros K M. rewrite (aes_decrypt_eq k _ (round_key k 10) (map (round_key k) (rev (seq 0 10)))).
  2:{ rewrite round_keys_eq by assumption. rewrite seq_S, rev_app_distr. reflexivity. }
  unfold aes_128. rewrite add_key_twice by (auto using shift_length; lia).
  apply (inv_rounds_main k 9 m); auto.
Qed.
Lemma aes_128_length k m : length k = 16%nat -> length m = 16%nat -> length (aes_128 k m) = 16%nat.
Proof. intros K M. unfold aes_128. apply add_key_length; auto using shift_length. Qed.

(** ** The checksum *)
Lemma crc_bit_step c b : crc_bit (Z.lxor c b) = Z.lxor (crc_step c (Z.odd b)) (Z.shiftr b 1).
Proof.
  unfold crc_bit, crc_step. assert (Z.odd (Z.lxor c b) = xorb (Z.odd c) (Z.odd b)) as ->.
  { rewrite <- !Z.bit0_odd. apply Z.lxor_spec. }
  rewrite Z.shiftr_lxor. destruct (xorb (Z.odd c) (Z.odd b)); [|reflexivity].
  rewrite !Z.lxor_assoc. f_equal. apply Z.lxor_comm.
Qed.
Lemma crc_byte c b : Nat.iter 8 crc_bit (Z.lxor c (bz b)) = foldl crc_step c (bits_of b).
Proof.
  unfold Nat.iter, nat_rect, bits_of. cbn [map foldl]. rewrite !crc_bit_step.
  rewrite !Z.shiftr_shiftr by lia. cbn [Z.add Pos.add Pos.succ].
  assert (forall n, 0 <= n -> Z.odd (Z.shiftr (bz b) n) = Z.testbit (bz b) n) as T.
  { intros n N. rewrite <- Z.bit0_odd, Z.shiftr_spec by lia. reflexivity. }
  rewrite !T by lia. rewrite <- Z.bit0_odd.
  assert (Z.shiftr (bz b) (1 + 1 + 1 + 1 + 1 + 1 + 1 + 1) = 0) as ->. { pose proof (bz_range b). rewrite Z.shiftr_div_pow2 by lia. apply Z.div_small. lia. }
  apply Z.lxor_0_r.
Qed.
Lemma crc16_eq l : crc16 l = iso13239 l.
Proof.
  unfold crc16, iso13239. generalize 0xffff. induction l as [|b l IH]; intros c; cbn [fold_left flat_map]; [reflexivity|].
  rewrite crc_byte, IH. rewrite foldl_app. reflexivity.
Qed.
Lemma lxor_small n a b : 0 < n -> 0 <= a < 2 ^ n -> 0 <= b < 2 ^ n -> 0 <= Z.lxor a b < 2 ^ n.
Proof.
  intros N A B. split; [apply Z.lxor_nonneg; lia|]. destruct (Z.eq_dec (Z.lxor a b) 0) as [->|]; [lia|].
  apply Z.log2_lt_pow2; [pose proof (proj2 (Z.lxor_nonneg a b)); lia|].
  pose proof (Z.log2_lxor a b ltac:(lia) ltac:(lia)).
  assert (forall z, 0 <= z < 2 ^ n -> Z.log2 z < n) as L.
  { intros z Hz. destruct (Z.eq_dec z 0) as [->|]; [cbn; lia|]. apply Z.log2_lt_pow2; lia. }
  pose proof (L a A). pose proof (L b B). lia.
Qed.
Lemma crc_step_range c x : 0 <= c < 2 ^ 16 -> 0 <= crc_step c x < 2 ^ 16.
Proof.
  intros R. unfold crc_step. assert (0 <= Z.shiftr c 1 < 2 ^ 16) as S.
  { rewrite Z.shiftr_div_pow2 by lia. change (2 ^ 1) with 2. lia. }
  destruct (xorb _ _); [|assumption]. apply lxor_small; lia.
Qed.
Lemma iso13239_range l : 0 <= iso13239 l < 2 ^ 16.
Proof.
  unfold iso13239. assert (0 <= 0xffff < 2 ^ 16) as R by lia. revert R. generalize 0xffff. generalize (flat_map bits_of l).
  intros bits. induction bits as [|x bits IH]; intros c R; cbn [foldl]; auto using crc_step_range.
Qed.
Lemma complement_low h l : 0 <= h < 256 -> 0 <= l < 256 -> Z.lxor (256 * h + l) (255 - l) = 256 * h + 255.
Proof.
  intros H L.
  assert (forall c, bool_decide (Z.lxor (bz c) (255 - bz c) = 255) = true) as X by (apply all_bytes_ok; vm_compute; reflexivity).
  specialize (X (zb l)). rewrite bz_zb, Z.mod_small in X by lia. apply bool_decide_eq_true in X.
  assert (forall x, 0 <= x < 256 -> 256 * h + x = Z.lxor (256 * h) x) as D.
  { intros x Hx. apply Z.add_nocarry_lxor. apply Z.bits_inj'. intros n N. rewrite Z.land_spec, Z.bits_0.
    destruct (Z.ltb_spec n 8) as [Lt|Ge].
    - change 256 with (2 ^ 8). rewrite Z.mul_comm, Z.mul_pow2_bits_low by lia. reflexivity.
    - destruct (Z.eq_dec x 0) as [->|]; [rewrite Z.bits_0; apply andb_false_r|].
      rewrite (Z.bits_above_log2 x), andb_false_r; [reflexivity|lia|]. apply Z.log2_lt_pow2; [lia|].
      apply Z.lt_le_trans with (2 ^ 8); [lia|]. apply Z.pow_le_mono_r; lia. }
  rewrite (D l L), Z.lxor_assoc, X, <- D by lia. reflexivity.
Qed.
Lemma crc16_with_crc b : crc16 (with_crc b) = 0xf0b8.
Proof.
  unfold with_crc. pose proof (iso13239_range b) as R. rewrite <- crc16_eq in R |- *. unfold crc16 in *. rewrite fold_left_app.
  set (c := fold_left _ b _) in *. clearbody c. cbn [fold_left le2].
  set (h := c / 256). set (l := c mod 256). assert (c = 256 * h + l) as Ec by (subst h l; lia).
  assert (0 <= h < 256 /\ 0 <= l < 256) as (Hh & Hl) by (subst h l; lia).
  rewrite !bz_zb. replace ((65535 - c) mod 256) with (255 - l) by lia.
  replace ((65535 - c) / 256 mod 256) with (255 - h) by lia.
  rewrite Ec, complement_low by assumption.
  assert (forall x, bool_decide (Nat.iter 8 crc_bit (Z.lxor (Nat.iter 8 crc_bit (256 * bz x + 255)) (255 - bz x)) = 0xf0b8) = true) as X
    by (apply all_bytes_ok; vm_compute; reflexivity).
  specialize (X (zb h)). rewrite bz_zb, Z.mod_small in X by lia. apply bool_decide_eq_true in X. exact X.
Qed.

(** ** Modhex *)
Lemma modhex_char_digit z : 0 <= z < 16 -> modhex_digit (modhex_char z) = Some z.
Proof.
  intros R. assert (z = 0 \/ z = 1 \/ z = 2 \/ z = 3 \/ z = 4 \/ z = 5 \/ z = 6 \/ z = 7 \/ z = 8 \/ z = 9 \/ z = 10 \/ z = 11 \/ z = 12 \/ z = 13 \/ z = 14 \/ z = 15) as D by lia.
  repeat (destruct D as [->|D]; [reflexivity|]). subst. reflexivity.
Qed.
Lemma modhex_to b : modhex (to_modhex b) = Some b.
Proof.
  induction b as [|x b IH]; [reflexivity|]. pose proof (bz_range x). unfold to_modhex in *. cbn [flat_map app modhex].
  rewrite !modhex_char_digit by lia. rewrite IH. replace (16 * (bz x / 16) + bz x mod 16) with (bz x) by lia. rewrite zb_bz. reflexivity.
Qed.
Lemma to_modhex_length b : length (to_modhex b) = (2 * length b)%nat.
Proof. unfold to_modhex. induction b as [|x b IH]; [reflexivity|]. cbn [flat_map app length]. lia. Qed.
(** Nothing else is modhex. *)
Lemma modhex_digit_char c z : modhex_digit c = Some z -> 0 <= z < 16 /\ c = modhex_char z.
Proof.
  intros E. assert (forall c, match modhex_digit c with Some z => bool_decide (0 <= z < 16 /\ c = modhex_char z) | None => true end = true) as X
    by (apply all_bytes_ok; vm_compute; reflexivity).
  specialize (X c). rewrite E in X. apply bool_decide_eq_true in X. exact X.
Qed.
Lemma modhex_only s b : modhex s = Some b -> s = to_modhex b.
Proof.
  revert b. induction s as [s IH] using (induction_ltof1 _ (@length byte)). unfold ltof in IH. intros b.
  destruct s as [|x [|y s]]; cbn [modhex]; [intros [= <-]; reflexivity|discriminate|].
  destruct (modhex_digit x) as [u|] eqn:U; [|discriminate]. destruct (modhex_digit y) as [v|] eqn:V; [|discriminate].
  destruct (modhex s) as [r|] eqn:R; [|discriminate]. intros [= <-].
  apply modhex_digit_char in U as (U & ->). apply modhex_digit_char in V as (V & ->).
  rewrite (IH s ltac:(cbn; lia) r R) at 1. unfold to_modhex. cbn [flat_map app]. rewrite bz_zb, Z.mod_small by lia.
  replace ((16 * u + v) / 16) with u by lia. replace ((16 * u + v) mod 16) with v by lia. reflexivity.
Qed.

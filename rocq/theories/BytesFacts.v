(** Lemmas about [Bytes]. *)
From Verif Require Export Bytes.
From Coq Require Export ZifyBool ZifyNat ZifyN.
Ltac Zify.zify_post_hook ::= Z.div_mod_to_equations.

Lemma bz_range b : (0 <= bz b < 256)%Z.
Proof.
  unfold bz. pose proof (Strings.Byte.to_N_bounded b). lia.
Qed.

Lemma zb_bz b : zb (bz b) = b.
Proof.
  unfold zb. rewrite Z.mod_small by apply bz_range.
  unfold bz. rewrite N2Z.id, Strings.Byte.of_to_N. reflexivity.
Qed.

Lemma bz_zb z : bz (zb z) = (z mod 256)%Z.
Proof.
  unfold zb.
  destruct (Strings.Byte.of_N (Z.to_N (z mod 256))) as [b|] eqn:E.
  - apply Strings.Byte.to_of_N in E. unfold bz. rewrite E.
    pose proof (Z.mod_pos_bound z 256). lia.
  - apply Strings.Byte.of_N_None_iff in E.
    pose proof (Z.mod_pos_bound z 256). lia.
Qed.

Lemma bz_inj a b : bz a = bz b -> a = b.
Proof. intros H. rewrite <- (zb_bz a), <- (zb_bz b), H. reflexivity. Qed.

Lemma zb_mod z : zb (z mod 256) = zb z.
Proof. apply bz_inj. rewrite !bz_zb. rewrite Z.mod_mod; lia. Qed.

Lemma length_be n z : length (be n z) = n.
Proof. induction n as [|n IH]; cbn [be length]; [reflexivity|]. rewrite IH; reflexivity. Qed.

Lemma unbe_acc_app acc a b : unbe_acc acc (a ++ b) = unbe_acc (unbe_acc acc a) b.
Proof. revert acc; induction a as [|x a IH]; intros acc; cbn; [reflexivity|apply IH]. Qed.

Lemma pow256_pos n : (0 < 256 ^ Z.of_nat n)%Z.
Proof. apply Z.pow_pos_nonneg; lia. Qed.

Lemma pow256_S n : (256 ^ Z.of_nat (S n) = 256 * 256 ^ Z.of_nat n)%Z.
Proof. rewrite Nat2Z.inj_succ, Z.pow_succ_r by lia. reflexivity. Qed.

Lemma unbe_acc_linear acc l :
  unbe_acc acc l = (acc * 256 ^ zlen l + unbe l)%Z.
Proof.
  unfold unbe. revert acc; induction l as [|b l IH]; intros acc; cbn [unbe_acc].
  - unfold zlen; cbn. lia.
  - rewrite IH. rewrite (IH (0 * 256 + bz b)%Z). unfold zlen; cbn [length].
    rewrite pow256_S. lia.
Qed.

Lemma unbe_cons b l : unbe (b :: l) = (bz b * 256 ^ zlen l + unbe l)%Z.
Proof. unfold unbe at 1. cbn [unbe_acc]. rewrite unbe_acc_linear. lia. Qed.

Lemma unbe_be n z : unbe (be n z) = (z mod 256 ^ Z.of_nat n)%Z.
Proof.
  induction n as [|n IH].
  - cbn. rewrite Z.mod_1_r. reflexivity.
  - cbn [be]. rewrite unbe_cons. unfold zlen. rewrite length_be, IH, bz_zb, pow256_S.
    pose proof (pow256_pos n) as Hp.
    rewrite (Z.mul_comm 256). rewrite Z.rem_mul_r by lia. lia.
Qed.

Lemma unbe_range l : (0 <= unbe l < 256 ^ zlen l)%Z.
Proof.
  induction l as [|b l IH].
  - change (0 <= 0 < 1)%Z. lia.
  - rewrite unbe_cons. unfold zlen in *; cbn [length]. rewrite pow256_S.
    pose proof (bz_range b). nia.
Qed.

Lemma be_unbe l : be (length l) (unbe l) = l.
Proof.
  induction l as [|b l IH]; [reflexivity|].
  cbn [length be]. rewrite unbe_cons. unfold zlen.
  pose proof (unbe_range l) as Hr. unfold zlen in Hr.
  f_equal.
  - rewrite Z.div_add_l by lia. rewrite Z.div_small by lia. rewrite Z.add_0_r. apply zb_bz.
  - transitivity (be (length l) (unbe l)); [|exact IH]. clear IH.
    assert (Hg : forall n a z, (n <= length l)%nat ->
      be n (a * 256 ^ Z.of_nat (length l) + z) = be n z).
    { induction n as [|n IHn]; intros a z Hle; [reflexivity|]. cbn [be]. f_equal.
      - apply bz_inj. rewrite !bz_zb.
        replace (a * 256 ^ Z.of_nat (length l))%Z
          with (a * 256 ^ (Z.of_nat (length l - n - 1)) * 256 * 256 ^ Z.of_nat n)%Z.
        2:{ rewrite <- !Z.mul_assoc. f_equal.
            replace (length l) with ((length l - n - 1) + S n)%nat at 2 by lia.
            rewrite Nat2Z.inj_add, Z.pow_add_r by lia. rewrite pow256_S. lia. }
        pose proof (pow256_pos n).
        rewrite Z.div_add_l by lia.
        rewrite Z.add_comm, Z.mod_add by lia. reflexivity.
      - apply IHn. lia. }
    apply Hg. lia.
Qed.

Lemma be_inj n a b :
  (0 <= a < 256 ^ Z.of_nat n)%Z -> (0 <= b < 256 ^ Z.of_nat n)%Z -> be n a = be n b -> a = b.
Proof.
  intros Ha Hb H. apply (f_equal unbe) in H. rewrite !unbe_be in H.
  rewrite !Z.mod_small in H by lia. exact H.
Qed.

Lemma unbe_inj a b : length a = length b -> unbe a = unbe b -> a = b.
Proof. intros Hl H. rewrite <- (be_unbe a), <- (be_unbe b), Hl, H. reflexivity. Qed.

Lemma to_i_range n z : (0 < n)%Z -> (- 2 ^ (n - 1) <= to_i n z < 2 ^ (n - 1))%Z.
Proof.
  intros Hn. unfold to_i.
  assert (H2 : (2 ^ n = 2 * 2 ^ (n - 1))%Z).
  { rewrite <- Z.pow_succ_r by lia. f_equal. lia. }
  assert (Hp : (0 < 2 ^ (n - 1))%Z) by (apply Z.pow_pos_nonneg; lia).
  pose proof (Z.mod_pos_bound z (2 ^ n)).
  case_decide; lia.
Qed.

Lemma to_i_small n z : (0 < n)%Z -> (- 2 ^ (n - 1) <= z < 2 ^ (n - 1))%Z -> to_i n z = z.
Proof.
  intros Hn Hz. unfold to_i.
  assert (H2 : (2 ^ n = 2 * 2 ^ (n - 1))%Z).
  { rewrite <- Z.pow_succ_r by lia. f_equal. lia. }
  destruct (Z.lt_ge_cases z 0) as [H|H].
  - replace (z mod 2 ^ n)%Z with (z + 2 ^ n)%Z.
    2:{ rewrite <- (Z.mod_add z 1) by lia. rewrite Z.mod_small; lia. }
    case_decide; lia.
  - rewrite Z.mod_small by lia. case_decide; lia.
Qed.

Lemma to_i_mod n z : (0 < n)%Z -> to_i n (z mod 2 ^ n) = to_i n z.
Proof.
  intros Hn. unfold to_i. rewrite Z.mod_mod; [reflexivity|].
  pose proof (Z.pow_pos_nonneg 2 n). lia.
Qed.

Lemma length_zeros n : length (zeros n) = n.
Proof. apply replicate_length. Qed.

Lemma length_copy_into n l : length (copy_into n l) = n.
Proof. unfold copy_into. rewrite app_length, take_length, length_zeros. lia. Qed.

Lemma copy_into_exact l : copy_into (length l) l = l.
Proof.
  unfold copy_into. rewrite Nat.sub_diag. cbn. rewrite app_nil_r.
  apply take_ge. lia.
Qed.

Lemma copy_into_id n l : length l = n -> copy_into n l = l.
Proof. intros <-. apply copy_into_exact. Qed.

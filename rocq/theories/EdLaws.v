(** Curve25519 and Ed25519 meet the laws. *)
From Coq Require Import Znumtheory Field.
From Verif Require Export EdMont.
Local Open Scope Z_scope.

Lemma square_one_twice p : fmul (ey p) (ey p) = fone -> emul 2 p = ezero.
Proof.
  intros Y. assert (ex p = fzero) as X.
  { apply square_z. rewrite x_square, Y. unfold fdiv. ring. }
  change (emul 2 p) with (eadd p p). destruct (eadd_xy p p) as [SX SY]. unfold sum_x, ed_x in SX. unfold sum_y, ed_y in SY. apply epoint_ext.
  - rewrite SX, X. change (ex ezero) with fzero. unfold fdiv. ring.
  - rewrite SY, X, Y. change (ey ezero) with fone. transitivity (fdiv fone fone); [f_equal; ring|]. field. exact fone_nz.
Qed.
Lemma proper_or_two p : proper p \/ emul 2 p = ezero.
Proof.
  destruct (fe_dec (ey p) fone) as [E|N]. { right. apply square_one_twice. rewrite E. ring. }
  destruct (fe_dec (fadd fone (ey p)) fzero) as [E|N']. { right. apply square_one_twice. assert (ey p = fopp fone) as ->. { transitivity (fsub (fadd fone (ey p)) fone); [ring|]. rewrite E. ring. } ring. }
  left. split; assumption.
Qed.
Lemma order_two k : (ed_order | 2 * k) -> (ed_order | k).
Proof.
  intros D. apply prime_mult in D; [|exact prime_order]. destruct D as [D|D]; [|exact D].
  apply Z.divide_pos_le in D; [|lia]. rewrite ed_order_eq in D. vm_compute in D. exfalso. apply D. reflexivity.
Qed.
Lemma proper_multiple k : ~ (ed_order | k) -> proper (emul k ebase).
Proof.
  intros N. destruct (proper_or_two (emul k ebase)) as [P|E]; [exact P|]. exfalso. apply N, order_two. rewrite <- emul_mul in E. apply base_order, E.
Qed.

Lemma clamp_shape b : exists j, clamp b = 8 * j /\ 2 ^ 254 <= clamp b < 2 ^ 255.
Proof.
  unfold clamp. generalize (unle b). intros u. set (v := Z.land u (2 ^ 254 - 8)).
  assert (v mod 8 = 0) as V8.
  { change 8 with (2 ^ 3). rewrite <- Z.land_ones by lia. unfold v. rewrite <- Z.land_assoc. change (Z.land (2 ^ 254 - 8) (Z.ones 3)) with 0. apply Z.land_0_r. }
  assert (0 <= v < 2 ^ 254) as VR.
  { assert (v mod 2 ^ 254 = v) as E.
    { rewrite <- Z.land_ones by lia. unfold v. rewrite <- Z.land_assoc. f_equal. }
    rewrite <- E. apply Z.mod_pos_bound. lia. }
  assert (Z.lor v (2 ^ 254) = v + 2 ^ 254) as ->.
  { assert (Z.land v (2 ^ 254) = 0) as D. { unfold v. rewrite <- Z.land_assoc. change (Z.land (2 ^ 254 - 8) (2 ^ 254)) with 0. apply Z.land_0_r. }
    rewrite <- Z.lxor_lor, <- Z.add_nocarry_lxor by exact D. reflexivity. }
  exists (v / 8 + 2 ^ 251). pose proof (Z.div_mod v 8 ltac:(lia)). lia.
Qed.
Lemma clamp_order b : ~ (ed_order | clamp b).
Proof.
  destruct (clamp_shape b) as (j & E & R). intros [t D]. pose proof prime_order as P.
  assert (rel_prime 8 ed_order) as RP. { apply Zgcd_1_rel_prime. vm_compute. reflexivity. }
  assert ((8 | t)) as [w ->]. { apply Gauss with ed_order; [|exact RP]. exists j. lia. }
  assert (2 ^ 255 < 8 * ed_order) as O by (vm_compute; reflexivity).
  assert (2 ^ 252 < ed_order) by (vm_compute; reflexivity).
  assert (w = 0 \/ w < 0 \/ 0 < w) as [->|[W|W]] by lia; nia.
Qed.
Lemma read_u a : fe_of (unle (lend 32 (fv a)) mod 2 ^ 255) = a.
Proof.
  rewrite unle_le. pose proof (fv_range a) as R. rewrite fp_eq in R. rewrite (Z.mod_small (fv a)) by (change (256 ^ Z.of_nat 32) with (2 * 2 ^ 255); lia).
  rewrite Z.mod_small by lia. apply fe_of_fv.
Qed.
Lemma base_proper : proper ebase.
Proof.
  rewrite <- (emul_one ebase). apply proper_multiple. intros D. apply Z.divide_pos_le in D; [|lia]. rewrite ed_order_eq in D. vm_compute in D. apply D. reflexivity.
Qed.
Lemma nine_u : fe_of (unle nine mod 2 ^ 255) = eu ebase.
Proof.
  replace (unle nine mod 2 ^ 255) with 9 by (vm_compute; reflexivity).
  assert (fe_of 9 = fdiv (fmul (fe_of 9) (fsub fone (ey ebase))) (fsub fone (ey ebase))) as E.
  { field. intros Z. destruct base_proper as [P _]. apply P. symmetry. apply fsub_z, Z. }
  rewrite E. unfold eu. apply (f_equal (fun z => fdiv z (fsub fone (ey ebase)))). rewrite <- base_y_of. unfold fone. rewrite <- fe_of_sub, <- fe_of_add, <- fe_of_mul. apply fe_of_eq.
  apply Z.mod_divide; [exact fp_nz|]. vm_compute. reflexivity.
Qed.
Lemma clamp_range b : 0 <= clamp b < 2 ^ 255.
Proof. destruct (clamp_shape b) as (j & _ & R). lia. Qed.
Lemma x25519_base b : x25519_of b nine = lend 32 (fv (eu (emul (clamp b) ebase))).
Proof. unfold x25519_of. rewrite nine_u, mont_u; [reflexivity|exact base_proper|apply clamp_range]. Qed.
Lemma x25519_twice a b : x25519_of a (x25519_of b nine) = lend 32 (fv (eu (emul (clamp a * clamp b) ebase))).
Proof.
  rewrite x25519_base. unfold x25519_of. rewrite read_u, mont_u, emul_mul; [reflexivity|apply proper_multiple, clamp_order|apply clamp_range].
Qed.

Theorem curve25519_laws : CurveLaws (K := curve25519).
Proof.
  constructor; cbn [curve25519 x25519 point pzero padd pmul pbase penc pdec]; intros.
  - apply length_le.
  - rewrite !x25519_twice, Z.mul_comm. reflexivity.
  - apply eadd_zero.
  - apply eadd_assoc.
  - reflexivity.
  - apply emul_add.
  - apply emul_mul.
  - apply base_order.
  - apply length_le.
  - apply edec_enc.
Qed.
Print Assumptions curve25519_laws.

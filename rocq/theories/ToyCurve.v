(** A group of the right order, only to show that the laws of [CurveLaws] can be met: the
    integers modulo the order. It is not a model of the curve. *)
From Verif Require Export Curve RealFacts.
Local Open Scope Z_scope.

Definition zpoint : Type := dsig (fun z : Z => 0 <= z < ed_order).
Definition zp (z : Z) : zpoint := dexist (z mod ed_order) (Z.mod_pos_bound z ed_order eq_refl).
Lemma zp_eq (p q : zpoint) : proj1_sig p = proj1_sig q -> p = q.
Proof. apply (proj2 (dsig_eq _ p q)). Qed.
Lemma zp_range (p : zpoint) : 0 <= proj1_sig p < ed_order.
Proof. apply (proj2_dsig p). Qed.

Definition toy_curve : Curve := {|
  x25519 k u := lend 32 (clamp k * unle u mod ed_order);
  point := zpoint;
  pzero := zp 0;
  padd p q := zp (proj1_sig p + proj1_sig q);
  pmul a p := zp (a * proj1_sig p);
  pbase := zp 1;
  penc p := lend 32 (proj1_sig p);
  pdec b := if decide (unle b < ed_order) then Some (zp (unle b)) else None;
|}.
Lemma toy_curve_laws : CurveLaws (K := toy_curve).
Proof.
  pose proof ed_order_pos as [O1 O2].
  assert (forall z, 0 <= z < ed_order -> unle (lend 32 z) = z) as U.
  { intros z Hz. rewrite unle_le. apply Z.mod_small. change (256 ^ Z.of_nat 32) with (256 ^ 32). lia. }
  assert (forall z, proj1_sig (zp z) = z mod ed_order) as V by reflexivity.
  constructor; cbn [toy_curve x25519 point pzero padd pmul pbase penc pdec]; intros.
  - apply length_le.
  - f_equal. rewrite !U by (apply Z.mod_pos_bound, O1). rewrite !Z.mul_mod_idemp_r by lia. f_equal. lia.
  - apply zp_eq. rewrite !V. rewrite Z.mod_0_l by lia. cbn. apply Z.mod_small, zp_range.
  - apply zp_eq. rewrite !V. rewrite Z.add_mod_idemp_r, Z.add_mod_idemp_l by lia. f_equal. lia.
  - apply zp_eq. reflexivity.
  - apply zp_eq. rewrite !V. rewrite <- Z.add_mod by lia. f_equal. lia.
  - apply zp_eq. rewrite !V. rewrite Z.mul_mod_idemp_r by lia. f_equal. lia.
  - rewrite <- Z.mod_divide by lia. split.
    + intros E. apply (f_equal (fun p : zpoint => proj1_sig p)) in E. rewrite !V, Z.mod_0_l in E by lia. rewrite Z.mul_mod_idemp_r, Z.mul_1_r in E by lia. exact E.
    + intros E. apply zp_eq. rewrite !V, Z.mod_0_l by lia. rewrite Z.mul_mod_idemp_r, Z.mul_1_r by lia. exact E.
  - apply length_le.
  - rewrite U by apply zp_range. rewrite decide_True by apply zp_range. f_equal. apply zp_eq. rewrite V. apply Z.mod_small, zp_range.
Qed.

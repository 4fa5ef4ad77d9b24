(** Decoding the encoding of a point gives the point. *)
From Coq Require Import Znumtheory Field.
From Verif Require Export EdOrder RealFacts.
Local Open Scope Z_scope.

Lemma square_root a b : fmul a a = fmul b b -> a = b \/ a = fopp b.
Proof.
  intros E. destruct (mul_zero _ _ _ _ _ _ _ _ ffield fe_dec (fsub a b) (fadd a b)) as [Z|Z].
  - transitivity (fsub (fmul a a) (fmul b b)); [ring|]. rewrite E. ring.
  - left. transitivity (fadd (fsub a b) b); [ring|]. rewrite Z. ring.
  - right. transitivity (fsub (fadd a b) b); [ring|]. rewrite Z. ring.
Qed.
Lemma sqrt_power z E h : 0 <= E -> 0 <= h -> 8 * E = fp + 3 -> 2 * h = fp - 1 -> fe_of z <> fzero ->
  fe_of ((z * z) ^ E * (z * z) ^ E) = fe_of (z * z) \/ fe_of ((z * z) ^ E * (z * z) ^ E) = fopp (fe_of (z * z)).
Proof.
  intros HE Hh E8 H2 NZ. replace (z * z) with (z ^ 2) by ring. rewrite <- !Z.pow_mul_r by lia. rewrite <- Z.pow_add_r by lia.
  replace (2 * E + 2 * E) with (2 + h) by lia. rewrite Z.pow_add_r by lia.
  assert (fmul (fe_of (z ^ h)) (fe_of (z ^ h)) = fmul fone fone) as S.
  { rewrite <- fe_of_mul, <- Z.pow_add_r by lia. replace (h + h) with (fp - 1) by lia. transitivity fone; [|ring]. apply fe_of_eq. apply fermat; [exact prime_fp|].
    intros D. apply NZ, fe_of_zero, D. }
  rewrite fe_of_mul. destruct (square_root _ _ S) as [->| ->]; [left|right]; ring.
Qed.
Lemma sqrt_exp_eq : 8 * Zpos sqrt_exp = fp + 3.
Proof. vm_compute. reflexivity. Qed.
Lemma half_exp : 2 * ((fp - 1) / 2) = fp - 1.
Proof. vm_compute. reflexivity. Qed.
Lemma fe_eqb_ne a b : a <> b -> fe_eqb a b = false.
Proof. intros N. destruct (fe_eqb a b) eqn:E; [|reflexivity]. apply fe_eqb_eq in E. contradiction. Qed.
Lemma fsqrt_square x : exists r, fsqrt (fmul x x) = Some r /\ fmul r r = fmul x x.
Proof.
  unfold fsqrt. cbv zeta. set (c := fpow (fmul x x) sqrt_exp).
  assert (fmul c c = fmul x x \/ fmul c c = fopp (fmul x x)) as H.
  { unfold c. destruct (fe_dec x fzero) as [->|N].
    - left. assert (forall e, fpow fzero e = fzero) as P. { induction e as [e IH|e IH|]; cbn [fpow]; cbv zeta; rewrite ?IH; ring. }
      replace (fmul fzero fzero) with fzero at 1 2 by ring. rewrite P. ring.
    - rewrite <- (fe_of_fv x) in N |- *. rewrite <- !fe_of_mul, fpow_of, <- fe_of_mul.
      apply (sqrt_power _ _ ((fp - 1) / 2)); [lia|apply Z.div_pos; [pose proof fp_big; lia|lia]|exact sqrt_exp_eq|exact half_exp|exact N]. }
  destruct (fe_eqb (fmul c c) (fmul x x)) eqn:E1.
  { exists c. split; [reflexivity|]. apply fe_eqb_eq, E1. }
  destruct H as [H|H]; [rewrite (proj2 (fe_eqb_eq _ _) H) in E1; discriminate|].
  assert (fmul (fmul c ed_i) (fmul c ed_i) = fmul x x) as Q.
  { transitivity (fmul (fmul c c) (fmul ed_i ed_i)); [ring|]. rewrite ed_i_sq, H. ring. }
  rewrite (proj2 (fe_eqb_eq _ _) Q). exists (fmul c ed_i). split; [reflexivity|exact Q].
Qed.
Lemma recover_x p : fdiv (fsub (fmul (ey p) (ey p)) fone) (fadd (fmul ed_d (fmul (ey p) (ey p))) fone) = fmul (ex p) (ex p).
Proof.
  pose proof (epoint_on p) as ON. unfold onc, ed_on in ON. set (x := ex p) in *. set (y := ey p) in *. clearbody x y.
  assert (fadd (fmul ed_d (fmul y y)) fone <> fzero) as N.
  { intros Z. destruct (fe_dec y fzero) as [->|NY].
    - apply fone_nz. rewrite <- Z. ring.
    - apply (ed_d_ns (fdiv ed_i y)). transitivity (fdiv (fmul ed_i ed_i) (fmul y y)); [field; exact NY|]. rewrite ed_i_sq.
      transitivity (fdiv (fsub (fmul ed_d (fmul y y)) (fadd (fmul ed_d (fmul y y)) fone)) (fmul y y)); [|rewrite Z; field; exact NY].
      f_equal. ring. }
  transitivity (fdiv (fmul (fmul x x) (fadd (fmul ed_d (fmul y y)) fone)) (fadd (fmul ed_d (fmul y y)) fone)); [|field; exact N].
  f_equal. transitivity (fadd (fsub (fsub (fmul y y) (fmul x x)) fone) (fmul x x)); [ring|]. rewrite ON. ring.
Qed.
Lemma parity_opp x : parity (fopp x) = parity x -> x = fzero.
Proof.
  unfold parity, fopp. rewrite fv_of. pose proof (fv_range x) as R. intros E. apply fe_ext. change (fv fzero) with (0 mod fp). rewrite Z.mod_0_l by exact fp_nz.
  destruct (Z.eq_dec (fv x) 0) as [Z|N]; [exact Z|]. exfalso. rewrite Z_mod_nz_opp_full in E by (rewrite Z.mod_small by lia; exact N). rewrite (Z.mod_small (fv x)) in E by lia.
  assert (fp mod 2 = 1) as O by (vm_compute; reflexivity). rewrite Zminus_mod, O in E. pose proof (Z.mod_pos_bound (fv x) 2 ltac:(lia)).
  destruct (Z.eq_dec (fv x mod 2) 0) as [H0|H0]; [rewrite H0 in E; discriminate|]. assert (fv x mod 2 = 1) as H1 by lia. rewrite H1 in E. discriminate.
Qed.
Lemma edec_enc p : edec (eenc p) = Some p.
Proof.
  unfold edec. assert (length (eenc p) = 32%nat) as L by apply length_le. rewrite L. change (negb (32 =? 32)%nat) with false. cbv iota.
  assert (0 <= parity (ex p) < 2) as PR by (apply Z.mod_pos_bound; lia). pose proof (fv_range (ey p)) as R. rewrite fp_eq in R.
  assert (unle (eenc p) = fv (ey p) + 2 ^ 255 * parity (ex p)) as U.
  { unfold eenc. rewrite unle_le. apply Z.mod_small. change (256 ^ Z.of_nat 32) with (2 * 2 ^ 255). lia. }
  rewrite U. replace (fv (ey p) + 2 ^ 255 * parity (ex p)) with (parity (ex p) * 2 ^ 255 + fv (ey p)) by lia.
  rewrite Z.div_add_l by lia. rewrite Z.add_comm, Z_mod_plus_full. rewrite Z.mod_small by lia. rewrite (Z.div_small (fv (ey p))) by lia. rewrite Z.add_0_r, fe_of_fv. cbv zeta.
  rewrite recover_x. destruct (fsqrt_square (ex p)) as (r & -> & E).
  assert ((if parity r =? parity (ex p) then r else fopp r) = ex p) as ->.
  { destruct (square_root _ _ E) as [->| ->]; [rewrite Z.eqb_refl; reflexivity|].
    destruct (parity (fopp (ex p)) =? parity (ex p)) eqn:Q; [|ring]. apply Z.eqb_eq in Q. apply parity_opp in Q. rewrite Q. ring. }
  destruct (epoint_at_on _ _ (epoint_on p)) as (q & -> & Qx & Qy). f_equal. apply epoint_ext; assumption.
Qed.

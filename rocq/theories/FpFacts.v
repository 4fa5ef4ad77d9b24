(** It is a field. *)
From Coq Require Import Znumtheory Field Eqdep_dec.
From Verif Require Export Fp Primes.
Local Open Scope Z_scope.

Lemma fp_pos : 0 < fp.
Proof. reflexivity. Qed.
Lemma prime_fp : prime fp.
Proof. exact prime_p. Qed.
Global Opaque fp.
Lemma fp_nz : fp <> 0.
Proof. pose proof fp_pos. lia. Qed.
Lemma fv_range a : 0 <= fv a < fp.
Proof. destruct a as [z H]. cbn [fv]. unfold reduced in H. apply andb_true_iff in H as [A B]. apply Z.leb_le in A. apply Z.ltb_lt in B. lia. Qed.
Lemma fe_ext a b : fv a = fv b -> a = b.
Proof.
  destruct a as [x Hx], b as [y Hy]. cbn [fv]. intros ->. f_equal. apply UIP_dec. intros [] []; auto; right; discriminate.
Qed.
Lemma fv_of z : fv (fe_of z) = z mod fp.
Proof. reflexivity. Qed.
Lemma fe_of_fv a : fe_of (fv a) = a.
Proof. apply fe_ext. rewrite fv_of. apply Z.mod_small, fv_range. Qed.
Lemma fe_of_eq x y : fe_of x = fe_of y <-> cong fp x y.
Proof.
  rewrite (cong_eq fp x y fp_nz). split; [intros E; apply (f_equal fv) in E; exact E|intros E; apply fe_ext; exact E].
Qed.
Lemma fe_of_add x y : fe_of (x + y) = fadd (fe_of x) (fe_of y).
Proof. apply fe_of_eq. rewrite !fv_of. apply cong_add; apply cong_sym, cong_mod, fp_nz. Qed.
Lemma fe_of_mul x y : fe_of (x * y) = fmul (fe_of x) (fe_of y).
Proof. apply fe_of_eq. rewrite !fv_of. apply cong_mul; apply cong_sym, cong_mod, fp_nz. Qed.
Lemma fe_of_opp x : fe_of (- x) = fopp (fe_of x).
Proof. apply fe_of_eq. rewrite fv_of. replace (- x) with (-1 * x) by ring. replace (- (x mod fp)) with (-1 * (x mod fp)) by ring. apply cong_mul; [apply cong_refl|apply cong_sym, cong_mod, fp_nz]. Qed.
Lemma fe_of_sub x y : fe_of (x - y) = fsub (fe_of x) (fe_of y).
Proof.
  transitivity (fadd (fe_of x) (fopp (fe_of y))); [rewrite <- fe_of_opp, <- fe_of_add; reflexivity|].
  unfold fadd, fopp, fsub. apply fe_of_eq. apply cong_add; [apply cong_refl|]. rewrite fv_of. apply cong_mod, fp_nz.
Qed.
Ltac to_z := repeat match goal with a : fe |- _ => rewrite <- (fe_of_fv a); let x := fresh "x" in set (x := fv a); clearbody x; clear a end;
  rewrite <- ?fe_of_opp, <- ?fe_of_mul, <- ?fe_of_sub, <- ?fe_of_add, <- ?fe_of_mul, <- ?fe_of_sub, <- ?fe_of_add.
Lemma fring : ring_theory fzero fone fadd fmul fsub fopp (@eq fe).
Proof.
  unfold fzero, fone. split; intros; to_z; f_equal; ring.
Qed.
Lemma fpow_of x e : fpow (fe_of x) e = fe_of (x ^ Zpos e).
Proof.
  induction e as [e IH|e IH|]; cbn [fpow]; cbv zeta; [| |rewrite Z.pow_1_r; reflexivity].
  - rewrite IH, <- !fe_of_mul. f_equal. rewrite Pos2Z.inj_xI, Z.pow_add_r, Z.pow_1_r by lia. replace (2 * Z.pos e) with (Z.pos e + Z.pos e) by lia. rewrite Z.pow_add_r by lia. reflexivity.
  - rewrite IH, <- !fe_of_mul. f_equal. rewrite Pos2Z.inj_xO. replace (2 * Z.pos e) with (Z.pos e + Z.pos e) by lia. rewrite Z.pow_add_r by lia. reflexivity.
Qed.
Lemma fe_of_zero x : fe_of x = fzero <-> (fp | x).
Proof. unfold fzero. rewrite fe_of_eq. unfold cong. rewrite Z.sub_0_r. reflexivity. Qed.
Lemma ffermat a : a <> fzero -> fpow a (Z.to_pos (fp - 1)) = fone.
Proof.
  intros N. rewrite <- (fe_of_fv a) in N |- *. rewrite fpow_of. apply fe_of_eq. pose proof prime_fp as P. assert (1 < fp) by (destruct P; lia). rewrite Z2Pos.id by lia.
  apply fermat; [exact P|]. intros D. apply N, fe_of_zero. exact D.
Qed.
Lemma fp_big : 100 < fp.
Proof. reflexivity. Qed.
Lemma finv_l a : a <> fzero -> fmul (finv a) a = fone.
Proof.
  intros N. rewrite <- (ffermat a N). unfold finv. rewrite <- (fe_of_fv a). rewrite !fpow_of, <- fe_of_mul. f_equal. pose proof fp_big. rewrite !Z2Pos.id by lia.
  replace (fp - 1) with (Z.succ (fp - 2)) by lia. rewrite Z.pow_succ_r by lia. ring.
Qed.
Lemma fone_nz : fone <> fzero.
Proof. intros E. apply fe_of_zero in E. pose proof fp_big. apply Z.divide_1_r_nonneg in E; lia. Qed.
Lemma ffield : field_theory fzero fone fadd fmul fsub fopp fdiv finv (@eq fe).
Proof. split; [exact fring|exact fone_nz|reflexivity|exact finv_l]. Qed.
Definition fe_dec (a b : fe) : {a = b} + {a <> b}.
Proof. destruct (Z.eq_dec (fv a) (fv b)) as [E|N]; [left; apply fe_ext; exact E|right; congruence]. Defined.
Add Field fe_field : ffield.

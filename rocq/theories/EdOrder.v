(** The base point of Ed25519 has order [ed_order], computed in projective coordinates. *)
From Coq Require Import Znumtheory Field.
From Verif Require Export EdGroup.
Local Open Scope Z_scope.

Definition dbl (P : Z * Z * Z) : Z * Z * Z :=
  let '(X, Y, W) := P in
  let b := red ((X + Y) * (X + Y)) in
  let c := red (X * X) in
  let d := red (Y * Y) in
  let f := d - c in
  let h := red (W * W) in
  let j := f - 2 * h in
  (red ((b - c - d) * j), red (f * (- c - d)), red (f * j)).
Definition madd (x y : Z) (P : Z * Z * Z) : Z * Z * Z :=
  let '(X, Y, W) := P in
  let b := red (W * W) in
  let c := red (X * x) in
  let d := red (Y * y) in
  let e := red (zd * red (c * d)) in
  let f := b - e in
  let g := b + e in
  (red (red (W * f) * ((X + Y) * (x + y) - c - d)), red (red (W * g) * (d + c)), red (f * g)).
Fixpoint multiple (x y : Z) (n : positive) : Z * Z * Z :=
  match n with
  | xH => (x, y, 1)
  | xO n => dbl (multiple x y n)
  | xI n => madd x y (dbl (multiple x y n))
  end.

Definition rep (P : Z * Z * Z) (p : epoint) : Prop :=
  let '(X, Y, W) := P in fe_of W <> fzero /\ fe_of X = fmul (ex p) (fe_of W) /\ fe_of Y = fmul (ey p) (fe_of W).

Lemma fmul_nz a b : a <> fzero -> b <> fzero -> fmul a b <> fzero.
Proof. exact (mul_nz _ _ _ _ _ _ _ _ ffield fe_dec a b). Qed.
Lemma fplus p q : fadd fone (fmul (fmul ed_d (fmul (ex p) (ex q))) (fmul (ey p) (ey q))) <> fzero.
Proof. exact (den_plus _ _ _ _ _ _ _ _ ffield fe_dec ed_d ed_i ed_two ed_i_sq ed_d_ns _ _ _ _ (epoint_on p) (epoint_on q)). Qed.
Lemma fminus p q : fsub fone (fmul (fmul ed_d (fmul (ex p) (ex q))) (fmul (ey p) (ey q))) <> fzero.
Proof. exact (den_minus _ _ _ _ _ _ _ _ ffield fe_dec ed_d ed_i ed_two ed_i_sq ed_d_ns _ _ _ _ (epoint_on p) (epoint_on q)). Qed.
Lemma fe_of_two z : fe_of (2 * z) = fadd (fe_of z) (fe_of z).
Proof. rewrite <- fe_of_add. f_equal. lia. Qed.
Ltac push := rewrite ?red_of, ?fe_of_mul, ?fe_of_sub, ?fe_of_add, ?fe_of_opp, ?fe_of_two.

Lemma rep_dbl P p : rep P p -> rep (dbl P) (eadd p p).
Proof.
  destruct P as [[X Y] W]. intros (NW & EX & EY). unfold dbl. cbv zeta. unfold rep.
  destruct (eadd_xy p p) as [SX SY]. rewrite SX, SY. unfold sum_x, sum_y, ed_x, ed_y.
  pose proof (fplus p p) as NP. pose proof (fminus p p) as NM. pose proof (epoint_on p) as ON. unfold onc, ed_on in ON.
  repeat (push; try rewrite EX; try rewrite EY).
  set (x := ex p) in *. set (y := ey p) in *. set (w := fe_of W) in *. clearbody x y w. clear SX SY EX EY.
  set (g := fadd fone (fmul (fmul ed_d (fmul x x)) (fmul y y))) in *. set (h := fsub fone (fmul (fmul ed_d (fmul x x)) (fmul y y))) in *.
  assert (fmul y y = fadd (fmul x x) g) as ON' by (rewrite <- ON; ring).
  assert (h = fsub (fadd fone fone) g) as EH by (unfold h, g; ring).
  clearbody g h. subst h.
  match goal with |- ?F <> _ /\ _ => assert (F = fopp (fmul (fmul (fmul w w) g) (fmul (fmul w w) (fsub (fadd fone fone) g)))) as EF by ring [ON'] end.
  rewrite EF. clear EF. split.
  { intros Z. apply (fmul_nz _ _ (fmul_nz _ _ (fmul_nz _ _ NW NW) NP) (fmul_nz _ _ (fmul_nz _ _ NW NW) NM)).
    transitivity (fopp fzero); [rewrite <- Z; ring|ring]. }
  split.
  - transitivity (fopp (fmul (fadd (fmul x y) (fmul x y)) (fmul (fmul (fmul w w) (fmul w w)) (fsub (fadd fone fone) g)))); [ring [ON']|]. field. exact NP.
  - transitivity (fopp (fmul (fadd (fmul y y) (fmul x x)) (fmul (fmul (fmul w w) (fmul w w)) g))); [ring [ON']|]. field. exact NM.
Qed.
Lemma rep_madd x y q P p : fe_of x = ex q -> fe_of y = ey q -> rep P p -> rep (madd x y P) (eadd q p).
Proof.
  intros Ex Ey. destruct P as [[X Y] W]. intros (NW & EX & EY). unfold madd. cbv zeta. unfold rep.
  destruct (eadd_xy q p) as [SX SY]. rewrite SX, SY. unfold sum_x, sum_y, ed_x, ed_y.
  pose proof (fplus q p) as NP. pose proof (fminus q p) as NM.
  repeat (push; try rewrite EX; try rewrite EY; try rewrite Ex; try rewrite Ey). rewrite <- ed_d_of.
  set (x1 := ex q) in *. set (y1 := ey q) in *. set (x2 := ex p) in *. set (y2 := ey p) in *. set (w := fe_of W) in *. clearbody x1 y1 x2 y2 w. clear SX SY EX EY Ex Ey.
  set (k := fmul (fmul ed_d (fmul x1 x2)) (fmul y1 y2)) in *.
  match goal with |- ?F <> _ /\ _ => assert (F = fmul (fmul (fmul w w) (fadd fone k)) (fmul (fmul w w) (fsub fone k))) as EF by (unfold k; ring) end.
  rewrite EF. clear EF. split; [|split].
  - apply fmul_nz; apply fmul_nz; auto using fmul_nz.
  - transitivity (fmul (fadd (fmul x1 y2) (fmul x2 y1)) (fmul (fmul (fmul w w) (fmul w w)) (fsub fone k))); [unfold k; ring|]. clearbody k. field. exact NP.
  - transitivity (fmul (fadd (fmul y1 y2) (fmul x1 x2)) (fmul (fmul (fmul w w) (fmul w w)) (fadd fone k))); [unfold k; ring|]. clearbody k. field. exact NM.
Qed.
Lemma rep_multiple x y q n : fe_of x = ex q -> fe_of y = ey q -> rep (multiple x y n) (emul (Zpos n) q).
Proof.
  intros Ex Ey. induction n as [n IH|n IH|]; cbn [multiple].
  - rewrite Pos2Z.inj_xI, Z.add_comm, emul_add, emul_one. apply rep_madd; [exact Ex|exact Ey|]. rewrite <- Z.add_diag, emul_add. apply rep_dbl, IH.
  - rewrite Pos2Z.inj_xO, <- Z.add_diag, emul_add. apply rep_dbl, IH.
  - rewrite emul_one. unfold rep. rewrite Ex, Ey. change (fe_of 1) with fone. split; [exact fone_nz|]. split; ring.
Qed.
Lemma rep_zero X Y W p : rep (X, Y, W) p -> X mod fp = 0 -> (Y - W) mod fp = 0 -> p = ezero.
Proof.
  intros (NW & EX & EY) HX HY. apply Z.mod_divide in HX; [|exact fp_nz]. apply Z.mod_divide in HY; [|exact fp_nz].
  apply fe_of_zero in HX. apply fe_of_zero in HY. rewrite fe_of_sub in HY. apply epoint_ext.
  - change (ex ezero) with fzero. destruct (fe_dec (ex p) fzero) as [E|N]; [exact E|]. exfalso. apply (fmul_nz _ _ N NW). rewrite <- EX. exact HX.
  - change (ey ezero) with fone. rewrite EY in HY. destruct (fe_dec (fsub (ey p) fone) fzero) as [E|N].
    + transitivity (fadd (fsub (ey p) fone) fone); [ring|]. rewrite E. ring.
    + exfalso. apply (fmul_nz _ _ N NW). rewrite <- HY. ring.
Qed.

Definition zbx : Z := 15112221349535400772501151409588531511454012693041857206046113283949847762202.
Definition zby : Z := 46316835694926478169428394003475163141307993866256225615783033603165251855960.
Definition order_check (x y : Z) (n : positive) : bool :=
  let '(X, Y, W) := multiple x y n in (X mod fp =? 0) && ((Y - W) mod fp =? 0).
Lemma killed x y q n : fe_of x = ex q -> fe_of y = ey q -> order_check x y n = true -> emul (Zpos n) q = ezero.
Proof.
  intros Ex Ey E. unfold order_check in E. pose proof (rep_multiple x y q n Ex Ey) as R.
  destruct (multiple x y n) as [[X Y] W]. apply andb_true_iff in E as [E1 E2]. apply Z.eqb_eq in E1, E2. apply (rep_zero X Y W); assumption.
Qed.
Definition ell : positive := 7237005577332262213973186563042994240857116359379907606001950938285454250989.
Lemma order_checked : order_check zbx zby ell = true.
Proof. vm_compute. reflexivity. Qed.
Lemma ed_order_eq : ed_order = Zpos ell.
Proof. vm_compute. reflexivity. Qed.
Lemma base_x_of : fe_of zbx = ex ebase.
Proof. unfold ebase. cbn [ex]. unfold base_x, zbx. reflexivity. Qed.
Lemma base_y_of : fe_of zby = ey ebase.
Proof. unfold ebase. cbn [ey]. unfold base_y, zby. reflexivity. Qed.
Lemma base_killed : emul ed_order ebase = ezero.
Proof. rewrite ed_order_eq. exact (killed zbx zby ebase ell base_x_of base_y_of order_checked). Qed.
Lemma prime_order : prime ed_order.
Proof. rewrite ed_order_eq. exact prime_l. Qed.
Lemma base_nonzero : ebase <> ezero.
Proof. intros E. apply (f_equal (fun p => fv (ey p))) in E. vm_compute in E. discriminate. Qed.
Lemma emul_ezero z : emul z ezero = ezero.
Proof.
  revert z. apply Z.peano_ind; [reflexivity| |].
  - intros z IH. rewrite emul_succ, eadd_zero. exact IH.
  - intros z IH. rewrite <- (Z.succ_pred z), emul_succ, eadd_zero in IH. exact IH.
Qed.
Lemma base_order a : emul a ebase = ezero <-> (ed_order | a).
Proof.
  split.
  - intros E. pose proof prime_order as P. destruct (Zdivide_dec ed_order a) as [D|N]; [exact D|]. exfalso.
    pose proof (prime_rel_prime _ P a N) as R. apply rel_prime_bezout in R. destruct R as [u v H]. apply base_nonzero.
    rewrite <- (emul_one ebase), <- H, emul_add, !emul_mul, base_killed, E.
    rewrite !emul_ezero, eadd_zero. reflexivity.
  - intros [k ->]. rewrite emul_mul, base_killed. apply emul_ezero.
Qed.

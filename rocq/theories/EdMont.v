(** The ladder of X25519 computes the multiples of points of Ed25519. *)
From Coq Require Import Znumtheory Field.
From Verif Require Export EdEnc.
Local Open Scope Z_scope.

Declare Scope fe_scope.
Delimit Scope fe_scope with fe.
Bind Scope fe_scope with fe.
Local Notation "a + b" := (fadd a b) : fe_scope.
Local Notation "a - b" := (fsub a b) : fe_scope.
Local Notation "a * b" := (fmul a b) : fe_scope.
Local Notation "a / b" := (fdiv a b) : fe_scope.
Local Notation "0" := fzero : fe_scope.
Local Notation "1" := fone : fe_scope.

(** The u-coordinate of a point: (1 + y) / (1 - y), and 0 for the neutral one. *)
Definition eu (p : epoint) : fe := ((1 + ey p) / (1 - ey p))%fe.
(** A pair of the ladder stands for a point. *)
Definition stands (xz : fe * fe) (p : epoint) : Prop :=
  ((xz.1 + xz.2)%fe <> 0%fe) /\ (xz.1 - xz.2)%fe = (ey p * (xz.1 + xz.2))%fe.

Lemma fsub_nz a b : a <> b -> (a - b)%fe <> 0%fe.
Proof. intros N E. apply N. exact (sub_eq _ _ _ _ _ _ _ _ ffield a b E). Qed.
Lemma fsub_z a b : (a - b)%fe = 0%fe -> a = b.
Proof. exact (sub_eq _ _ _ _ _ _ _ _ ffield a b). Qed.
Lemma fmul_z a b : (a * b)%fe = 0%fe -> a = 0%fe \/ b = 0%fe.
Proof. exact (mul_zero _ _ _ _ _ _ _ _ ffield fe_dec a b). Qed.
Lemma dy_nz y : (1 + ed_d * (y * y))%fe <> 0%fe.
Proof.
  intros Z. destruct (fe_dec y fzero) as [->|NY].
  - apply fone_nz. rewrite <- Z. ring.
  - apply (ed_d_ns (fdiv ed_i y)). transitivity (fdiv (fmul ed_i ed_i) (fmul y y)); [field; exact NY|]. rewrite ed_i_sq.
    transitivity (fdiv (fsub (fmul ed_d (fmul y y)) (1 + ed_d * (y * y))%fe) (fmul y y)); [|rewrite Z; field; exact NY].
    f_equal. ring.
Qed.
Lemma x_square p : (ex p * ex p)%fe = ((ey p * ey p - 1) / (1 + ed_d * (ey p * ey p)))%fe.
Proof. rewrite <- recover_x. f_equal. ring. Qed.
(** d + 1 = 1 / 121666 *)
Lemma a24_d : (a24 + (a24 + 1) * ed_d)%fe = 0%fe.
Proof.
  unfold a24, fone. rewrite ed_d_of. rewrite <- fe_of_add, <- fe_of_mul, <- fe_of_add. apply vanishes. vm_compute. reflexivity.
Qed.
Lemma a24_nz : (a24 + 1)%fe <> 0%fe.
Proof. unfold a24, fone. rewrite <- fe_of_add. intros E. apply fe_of_zero in E. apply Z.mod_divide in E; [|exact fp_nz]. vm_compute in E. discriminate. Qed.
Lemma sum_yy p q : ey (eadd p q) = ((ey p * ey q + ex p * ex q) / (1 - ed_d * (ex p * ex q) * (ey p * ey q)))%fe.
Proof. apply eadd_xy. Qed.
Lemma diff_yy p q : ey (eadd q (eneg p)) = ((ey p * ey q - ex p * ex q) / (1 + ed_d * (ex p * ex q) * (ey p * ey q)))%fe.
Proof.
  rewrite sum_yy. destruct (eneg_xy p) as [-> ->]. f_equal; ring.
Qed.

Lemma stands_double x1 a b p : stands a p -> stands (ladder_step x1 (a, b)).1 (eadd p p).
Proof.
  destruct a as [X W], b as [X3 W3]. intros [N E]. cbn [fst snd] in *. unfold ladder_step. cbv zeta. unfold stands. cbn [fst snd].
  rewrite E. set (s := (X + W)%fe) in *. clearbody s. rewrite sum_yy.
  pose proof (fminus p p) as NM. pose proof (dy_nz (ey p)) as ND. pose proof (epoint_on p) as ON. unfold onc, ed_on in ON.
  pose proof a24_nz as NC. pose proof a24_d as CD. pose proof (x_square p) as XS.
  set (x := ex p) in *. set (y := ey p) in *. clearbody x y. set (c := a24) in *. set (d := ed_d) in *. clearbody c d.
  assert (1 - d * (x * x) * (y * y) = 1 + 1 - y * y + x * x)%fe as E1.
  { transitivity (1 + 1 - (1 + d * (x * x) * (y * y)))%fe; [ring|]. rewrite <- ON. ring. }
  rewrite E1 in *. clear E1.
  assert ((c + 1) * (1 + d * (y * y)) = c + 1 - c * y * y)%fe as E2.
  { transitivity ((c + 1) + (c + (c + 1) * d) * (y * y) - c * y * y)%fe; [ring|]. rewrite CD. ring. }
  pose proof (fmul_nz _ _ NC ND) as NG. rewrite E2 in NG. clear E2.
  assert (c * x * x * y * y = (c + 1) * (1 + x * x - y * y))%fe as H.
  { transitivity ((c + (c + 1) * d) * (x * x) * (y * y) - (c + 1) * (1 + d * (x * x) * (y * y)) + (c + 1))%fe; [ring|]. rewrite CD, <- ON. ring. }
  clear CD ON XS.
  match goal with |- ?F <> _ /\ _ => assert (F = (s * s) * (s * s) * ((c + 1 - c * y * y) * (1 + 1 - y * y + x * x)))%fe as EF by ring [H] end.
  rewrite EF. split.
  - apply fmul_nz; apply fmul_nz; auto using fmul_nz.
  - transitivity ((y * y + x * x) * ((s * s) * (s * s) * (c + 1 - c * y * y)))%fe; [ring [H]|]. field. exact NM.
Qed.

(** Sum and difference of two points. *)
Lemma sum_diff p q : let yS := ey (eadd p q) in let yD := ey (eadd q (eneg p)) in
  ((ey p + ey q) * (ey p + ey q) * ((1 - yS) * (1 - yD)) = (ey q - ey p) * (ey q - ey p) * ((1 + yS) * (1 + yD)))%fe.
Proof.
  cbv zeta. rewrite sum_yy, diff_yy. pose proof (fminus p q) as NM. pose proof (fplus p q) as NP.
  pose proof (epoint_on p) as ON1. pose proof (epoint_on q) as ON2. unfold onc, ed_on in ON1, ON2.
  pose proof (x_square p) as X1. pose proof (x_square q) as X2. pose proof (dy_nz (ey p)) as D1. pose proof (dy_nz (ey q)) as D2.
  set (x := ex p) in *. set (y := ey p) in *. set (x' := ex q) in *. set (y' := ey q) in *. clearbody x y x' y'. set (d := ed_d) in *. clearbody d.
  set (k := (d * (x * x') * (y * y'))%fe) in *.
  assert ((y + y') * (y + y') * ((1 - k - (y * y' + x * x')) * (1 + k - (y * y' - x * x'))) = (y' - y) * (y' - y) * ((1 - k + (y * y' + x * x')) * (1 + k + (y * y' - x * x'))))%fe as H.
  { set (m := (y * y')%fe). set (n := (x * x')%fe).
    assert (n * n * ((1 + d * (y * y)) * (1 + d * (y' * y'))) = (y * y - 1) * (y' * y' - 1))%fe as NN.
    { transitivity ((x * x) * (x' * x') * ((1 + d * (y * y)) * (1 + d * (y' * y'))))%fe; [unfold n; ring|]. rewrite X1, X2. field. auto. }
    set (G := ((1 + d * (y * y)) * (1 + d * (y' * y')))%fe) in *. assert (G <> 0%fe) as NG by (apply fmul_nz; assumption).
    apply fsub_z.
    match goal with |- ?L = _ => assert (G * L = 0)%fe as Z end.
    { transitivity ((y + y') * (y + y') * ((1 - m) * (1 - m) * G - (n * n * G) * ((d * m + 1) * (d * m + 1))) - (y' - y) * (y' - y) * ((1 + m) * (1 + m) * G - (n * n * G) * ((d * m - 1) * (d * m - 1))))%fe.
      - unfold k. fold m n. replace (d * n * m)%fe with (d * (n * m))%fe by ring. clearbody G n m. ring.
      - rewrite NN. unfold G, m. ring. }
    apply fmul_z in Z as [Z|Z]; [contradiction|exact Z]. }
  clearbody k.
  transitivity (((y + y') * (y + y') * ((1 - k - (y * y' + x * x')) * (1 + k - (y * y' - x * x')))) / ((1 - k) * (1 + k)))%fe; [field; auto|].
  rewrite H. field. auto.
Qed.
Lemma fdouble_z a : (a + a)%fe = 0%fe -> a = 0%fe.
Proof.
  intros E. destruct (fmul_z (1 + 1)%fe a) as [Z|Z]; [rewrite <- E; ring|destruct (ed_two Z)|exact Z].
Qed.
Lemma square_z a : (a * a)%fe = 0%fe -> a = 0%fe.
Proof. intros E. apply fmul_z in E as [E|E]; exact E. Qed.
Lemma stands_sum x1 a b p q : let yD := ey (eadd q (eneg p)) in
  stands a p -> stands b q -> yD <> 1%fe -> (1 + yD)%fe <> 0%fe -> (x1 * (1 - yD))%fe = (1 + yD)%fe -> stands (ladder_step x1 (a, b)).2 (eadd p q).
Proof.
  cbv zeta. pose proof (sum_diff p q) as SD. cbv zeta in SD. pose proof (diff_yy p q) as DY.
  pose proof (epoint_on p) as ON1. pose proof (epoint_on q) as ON2. unfold onc, ed_on in ON1, ON2.
  set (yD := ey (eadd q (eneg p))) in *. clearbody yD. set (yS := ey (eadd p q)) in *.
  destruct a as [X W], b as [X3 W3]. intros [N2 E2] [N3 E3] D1 D2 HX. cbn [fst snd] in *. unfold ladder_step. cbv zeta. unfold stands. cbn [fst snd]. fold yS.
  rewrite E2, E3. set (s := (X + W)%fe) in *. set (s' := (X3 + W3)%fe) in *. clearbody s s' yS.
  set (x := ex p) in *. set (y := ey p) in *. set (x' := ex q) in *. set (y' := ey q) in *. clearbody x y x' y'. set (d := ed_d) in *. clearbody d.
  apply fsub_nz in D1. assert ((1 - yD)%fe <> 0%fe) as D1'. { intros Z. apply D1. transitivity (fopp (1 - yD)%fe); [ring|]. rewrite Z. ring. }
  assert ((y + y') * (y + y') * (1 - yS) = x1 * ((y' - y) * (y' - y)) * (1 + yS))%fe as C.
  { apply fsub_z. match goal with |- ?L = _ => destruct (fmul_z (1 - yD)%fe L) as [Z|Z] end; [|contradiction|exact Z].
    transitivity ((y + y') * (y + y') * ((1 - yS) * (1 - yD)) - (y' - y) * (y' - y) * (1 + yS) * (x1 * (1 - yD)))%fe; [ring|]. rewrite SD, HX. ring. }
  assert (((y + y') * (y + y') + x1 * ((y' - y) * (y' - y)))%fe <> 0%fe) as NZ.
  { intros Z.
    assert ((y + y') * (y + y') = 0)%fe as A.
    { apply fdouble_z. transitivity (((y + y') * (y + y') + x1 * ((y' - y) * (y' - y))) * (1 + yS) + ((y + y') * (y + y') * (1 - yS) - x1 * ((y' - y) * (y' - y)) * (1 + yS)))%fe; [ring|].
      rewrite Z, C. ring. }
    rewrite A in Z. assert (x1 * ((y' - y) * (y' - y)) = 0)%fe as B by (rewrite <- Z; ring).
    apply square_z in A. apply fmul_z in B as [B|B]; [apply D2; rewrite <- HX, B; ring|]. apply square_z in B.
    assert (y' = 0%fe) as Y'. { apply fdouble_z. transitivity ((y + y') + (y' - y))%fe; [ring|]. rewrite A, B. ring. }
    subst y'. assert (y = 0%fe) as Y by (rewrite <- A; ring). subst y.
    assert (((x * x') * (x * x')) = 1 * 1)%fe as Q.
    { transitivity ((0 * 0 - x * x) * (0 * 0 - x' * x'))%fe; [ring|]. rewrite ON1, ON2. ring. }
    assert (yD = fopp (x * x')%fe) as DY'. { rewrite DY. field. exact fone_nz. }
    apply square_root in Q as [Q|Q]; rewrite Q in DY'; [apply D2; rewrite DY'; ring|apply D1; rewrite DY'; ring]. }
  split.
  - match goal with |- ?F <> _ => replace F with ((s * s') * (s * s') * ((y + y') * (y + y') + x1 * ((y' - y) * (y' - y))))%fe by ring end.
    apply fmul_nz; [|exact NZ]. apply fmul_nz; apply fmul_nz; assumption.
  - apply fsub_z. transitivity ((s * s') * (s * s') * (((y + y') * (y + y') * (1 - yS)) - (x1 * ((y' - y) * (y' - y)) * (1 + yS))))%fe; [ring|]. rewrite C. ring.
Qed.

(** The ladder. *)
Definition proper (p : epoint) : Prop := ey p <> 1%fe /\ (1 + ey p)%fe <> 0%fe.
Lemma stands_ladder n k p x1 : proper p -> (x1 * (1 - ey p))%fe = (1 + ey p)%fe ->
  stands (ladder n k x1).1 (emul (k mod 2 ^ Z.of_nat n) p) /\ stands (ladder n k x1).2 (emul (k mod 2 ^ Z.of_nat n + 1) p).
Proof.
  intros [P1 P2] HX. revert k. induction n as [|n IH]; intros k.
  - cbn [ladder fst snd]. change (2 ^ Z.of_nat 0) with 1%Z. rewrite Z.mod_1_r. unfold stands. cbn [fst snd]. split; split.
    + intros E. apply fone_nz. rewrite <- E. ring.
    + change (ey (emul 0 p)) with 1%fe. ring.
    + intros E. change (emul (0 + 1) p) with p in *. assert ((x1 * (1 - ey p))%fe = (ey p - 1)%fe) as Z. { transitivity ((x1 + 1) * (1 - ey p) - (1 - ey p))%fe; [ring|]. rewrite E. ring. }
      rewrite HX in Z. apply ed_two. transitivity ((1 + ey p) - (ey p - 1))%fe; [ring|]. rewrite Z. ring.
    + change (emul (0 + 1) p) with p. apply fsub_z. transitivity (x1 * (1 - ey p) - (1 + ey p))%fe; [ring|]. rewrite HX. ring.
  - cbn [ladder]. specialize (IH (k / 2)%Z). destruct IH as [I1 I2]. set (m := ((k / 2) mod 2 ^ Z.of_nat n)%Z) in *. destruct (ladder n (k / 2) x1) as [a b]. cbn [fst snd] in I1, I2.
    assert (k mod 2 ^ Z.of_nat (S n) = 2 * m + Z.b2z (Z.odd k))%Z as EM.
    { rewrite Nat2Z.inj_succ, Z.pow_succ_r by lia. rewrite Z.rem_mul_r by lia. rewrite Zmod_odd. fold m. destruct (Z.odd k); cbn [Z.b2z]; lia. }
    rewrite EM. destruct (Z.odd k); cbn [swap_pairs Z.b2z fst snd].
    + assert (eadd (emul m p) (eneg (emul (m + 1) p)) = eneg p) as D.
      { rewrite <- emul_opp, <- emul_add. replace (m + - (m + 1))%Z with (- (1))%Z by lia. rewrite emul_opp. reflexivity. }
      destruct (eneg_xy p) as [_ NY]. split.
      * replace (emul (2 * m + 1) p) with (eadd (emul (m + 1) p) (emul m p)) by (rewrite <- emul_add; f_equal; lia).
        apply stands_sum; [exact I2|exact I1| | |]; rewrite D, NY; assumption.
      * replace (emul (2 * m + 1 + 1) p) with (eadd (emul (m + 1) p) (emul (m + 1) p)) by (rewrite <- emul_add; f_equal; lia).
        apply stands_double, I2.
    + assert (eadd (emul (m + 1) p) (eneg (emul m p)) = p) as D.
      { rewrite <- emul_opp, <- emul_add. replace (m + 1 + - m)%Z with 1%Z by lia. reflexivity. }
      rewrite Z.add_0_r. split.
      * replace (emul (2 * m) p) with (eadd (emul m p) (emul m p)) by (rewrite <- emul_add; f_equal; lia). apply stands_double, I1.
      * replace (emul (2 * m + 1) p) with (eadd (emul m p) (emul (m + 1) p)) by (rewrite <- emul_add; f_equal; lia).
        apply stands_sum; [exact I1|exact I2| | |]; rewrite D; assumption.
Qed.
Lemma finv_zero : finv 0%fe = 0%fe.
Proof. unfold finv. generalize (Z.to_pos (fp - 2)). intros e. induction e as [e IH|e IH|]; cbn [fpow]; cbv zeta; rewrite ?IH; ring. Qed.
Lemma stands_u xz p : stands xz p -> (xz.1 * finv xz.2)%fe = eu p.
Proof.
  destruct xz as [X W]. intros [N E]. cbn [fst snd] in *. unfold eu. set (y := ey p) in *. clearbody y.
  destruct (fe_dec y 1%fe) as [->|NY].
  - assert (W = 0%fe) as ->. { apply fdouble_z. transitivity ((X + W) - (X - W))%fe; [ring|]. rewrite E. ring. }
    unfold fdiv. replace (1 - 1)%fe with 0%fe by ring. rewrite finv_zero. ring.
  - assert ((1 - y)%fe <> 0%fe) as N1. { intros Z. apply NY. symmetry. apply fsub_z, Z. }
    assert ((1 + 1) * W = (1 - y) * (X + W))%fe as W2. { transitivity ((X + W) - (X - W))%fe; [ring|]. rewrite E. ring. }
    assert ((1 + 1) * X = (1 + y) * (X + W))%fe as X2. { transitivity ((X + W) + (X - W))%fe; [ring|]. rewrite E. ring. }
    assert (W <> 0%fe) as NW. { intros ->. apply (fmul_nz _ _ N1 N). rewrite <- W2. ring. }
    change (X * finv W)%fe with (X / W)%fe. set (s := (X + W)%fe) in *. clearbody s.
    transitivity (((1 + 1) * X) / ((1 + 1) * W))%fe; [field; split; [exact NW|exact ed_two]|]. rewrite W2, X2. field. auto.
Qed.
Lemma mont_u k p : proper p -> (0 <= k < 2 ^ 255)%Z -> mont k (eu p) = eu (emul k p).
Proof.
  intros P K. assert ((eu p * (1 - ey p))%fe = (1 + ey p)%fe) as HX.
  { unfold eu. destruct P as [P _]. field. intros Z. apply P. symmetry. apply fsub_z, Z. }
  destruct (stands_ladder 255 k p (eu p) P HX) as [S _]. apply stands_u in S. rewrite Z.mod_small in S by exact K. exact S.
Qed.

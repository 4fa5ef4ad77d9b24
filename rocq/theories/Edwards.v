(** The group of a complete twisted Edwards curve [y^2 - x^2 = 1 + d x^2 y^2] over any
    field in which -1 is a square and [d] is none. *)
From Coq Require Import Ring Field.

Section Edwards.
Context {F : Type} (zero one : F) (add mul sub : F -> F -> F) (opp : F -> F) (div : F -> F -> F) (inv : F -> F).
Context (FT : field_theory zero one add mul sub opp div inv (@eq F)).
Add Field edwards_field : FT.
Context (F_dec : forall x y : F, {x = y} + {x <> y}).
Declare Scope ed_scope.
Local Infix "+" := add : ed_scope.
Local Infix "*" := mul : ed_scope.
Local Infix "-" := sub : ed_scope.
Local Infix "/" := div : ed_scope.
Local Notation "- x" := (opp x) : ed_scope.
Local Notation "0" := zero : ed_scope.
Local Notation "1" := one : ed_scope.
Local Open Scope ed_scope.

Context (d e i : F) (two : 1 + 1 <> 0) (i_sq : i * i = - (1)) (d_e : d * e = 1) (d_ns : forall x, x * x <> d).

Definition ed_on (x y : F) : Prop := y * y - x * x = 1 + d * (x * x) * (y * y).
Definition ed_x (x1 y1 x2 y2 : F) : F := (x1 * y2 + x2 * y1) / (1 + d * (x1 * x2) * (y1 * y2)).
Definition ed_y (x1 y1 x2 y2 : F) : F := (y1 * y2 + x1 * x2) / (1 - d * (x1 * x2) * (y1 * y2)).

Lemma one_nz : 1 <> 0.
Proof. exact (F_1_neq_0 FT). Qed.
Lemma mul_zero x y : x * y = 0 -> x = 0 \/ y = 0.
Proof.
  intros H. destruct (F_dec x 0) as [E|N]; [left; exact E|right]. transitivity (inv x * x * y); [field; exact N|]. transitivity (inv x * (x * y)); [ring|]. rewrite H. ring.
Qed.
Lemma mul_nz x y : x <> 0 -> y <> 0 -> x * y <> 0.
Proof. intros A B H. apply mul_zero in H. destruct H; contradiction. Qed.
Lemma sub_eq x y : x - y = 0 -> x = y.
Proof. intros H. transitivity (x - y + y); [ring|]. rewrite H. ring. Qed.
Lemma e_nz : e <> 0.
Proof. intros H. apply one_nz. rewrite <- d_e, H. ring. Qed.
Lemma d_nz : d <> 0.
Proof. intros H. apply one_nz. rewrite <- d_e, H. ring. Qed.
Lemma i_nz : i <> 0.
Proof. intros H. apply one_nz. transitivity (- (- (1))); [ring|]. rewrite <- i_sq, H. ring. Qed.

Lemma on_e x y : ed_on x y <-> x * x * y * y = e * (y * y - x * x - 1).
Proof.
  unfold ed_on. split; intros H.
  - transitivity (e * d * (x * x * y * y)); [transitivity (d * e * (x * x * y * y)); [rewrite d_e|]; ring|]. rewrite H. ring.
  - transitivity (1 + d * (x * x * y * y)); [|ring]. rewrite H. transitivity (1 + d * e * (y * y - x * x - 1)); [rewrite d_e|]; ring.
Qed.

(** Completeness. *)
Lemma complete_aux x1 y1 x2 y2 s : ed_on x1 y1 -> ed_on x2 y2 -> d * (x1 * x2) * (y1 * y2) = s -> s * s = 1 -> False.
Proof.
  intros H1 H2 T S. unfold ed_on in *.
  assert (forall j, j * j = - (1) -> (j * x1 + s * y1) * (j * x1 + s * y1) = d * (x1 * y1) * (x1 * y1) * ((j * x2 + y2) * (j * x2 + y2))) as K.
  { intros j J.
    assert (d * (x1 * y1) * (x1 * y1) * (y2 * y2 - x2 * x2) = y1 * y1 - x1 * x1) as A.
    { rewrite H1, H2. transitivity (d * (x1 * x1) * (y1 * y1) + (d * (x1 * x2) * (y1 * y2)) * (d * (x1 * x2) * (y1 * y2))); [ring|]. rewrite T, S. ring. }
    transitivity (j * j * (x1 * x1) + s * s * (y1 * y1) + (1 + 1) * j * x1 * y1 * s); [ring|]. rewrite J, S.
    transitivity (y1 * y1 - x1 * x1 + (1 + 1) * j * x1 * y1 * s); [ring|]. rewrite <- A, <- T.
    transitivity (d * (x1 * y1) * (x1 * y1) * (- (1) * (x2 * x2) + y2 * y2 + (1 + 1) * j * x2 * y2)); [ring|]. rewrite <- J. ring. }
  assert (x1 * y1 <> 0) as N.
  { intros Z. apply one_nz. rewrite <- S, <- T. transitivity (d * d * (x2 * y2) * (x2 * y2) * (x1 * y1) * (x1 * y1)); [ring|]. rewrite Z. ring. }
  assert (forall j, j * j = - (1) -> j * x2 + y2 = 0) as L.
  { intros j J. destruct (F_dec (j * x2 + y2) 0) as [E|E]; [exact E|]. exfalso.
    apply (d_ns ((j * x1 + s * y1) / (x1 * y1 * (j * x2 + y2)))).
    assert (x1 <> 0) by (intros X; apply N; rewrite X; ring). assert (y1 <> 0) by (intros X; apply N; rewrite X; ring).
    transitivity ((j * x1 + s * y1) * (j * x1 + s * y1) / (x1 * y1 * (j * x2 + y2) * (x1 * y1 * (j * x2 + y2)))); [field; auto|].
    rewrite (K j J). field. auto. }
  pose proof (L i i_sq) as L1. assert ((- i) * (- i) = - (1)) as I' by (rewrite <- i_sq; ring). pose proof (L (- i) I') as L2.
  assert (y2 = 0) as Y. { assert ((1 + 1) * y2 = 0) as Z by (transitivity ((i * x2 + y2) + (- i * x2 + y2)); [ring|rewrite L1, L2; ring]). apply mul_zero in Z as [Z|Z]; [contradiction|exact Z]. }
  apply one_nz. rewrite <- S, <- T, Y. ring.
Qed.
Lemma den_plus x1 y1 x2 y2 : ed_on x1 y1 -> ed_on x2 y2 -> 1 + d * (x1 * x2) * (y1 * y2) <> 0.
Proof.
  intros H1 H2 Z. apply (complete_aux x1 y1 x2 y2 (- (1)) H1 H2); [|ring]. transitivity (1 + d * (x1 * x2) * (y1 * y2) - 1); [ring|]. rewrite Z. ring.
Qed.
Lemma den_minus x1 y1 x2 y2 : ed_on x1 y1 -> ed_on x2 y2 -> 1 - d * (x1 * x2) * (y1 * y2) <> 0.
Proof. intros H1 H2 Z. apply (complete_aux x1 y1 x2 y2 1 H1 H2); [|ring]. symmetry. apply sub_eq. exact Z. Qed.

(** The same with [e = 1/d]. *)
Lemma plus_e x1 y1 x2 y2 : 1 + d * (x1 * x2) * (y1 * y2) = d * (e + x1 * x2 * y1 * y2).
Proof. transitivity (d * e + d * (x1 * x2 * y1 * y2)); [rewrite d_e|]; ring. Qed.
Lemma minus_e x1 y1 x2 y2 : 1 - d * (x1 * x2) * (y1 * y2) = d * (e - x1 * x2 * y1 * y2).
Proof. transitivity (d * e - d * (x1 * x2 * y1 * y2)); [rewrite d_e|]; ring. Qed.
Lemma e_plus x1 y1 x2 y2 : ed_on x1 y1 -> ed_on x2 y2 -> e + x1 * x2 * y1 * y2 <> 0.
Proof. intros H1 H2 Z. apply (den_plus _ _ _ _ H1 H2). rewrite plus_e, Z. ring. Qed.
Lemma e_minus x1 y1 x2 y2 : ed_on x1 y1 -> ed_on x2 y2 -> e - x1 * x2 * y1 * y2 <> 0.
Proof. intros H1 H2 Z. apply (den_minus _ _ _ _ H1 H2). rewrite minus_e, Z. ring. Qed.
Lemma e_d : e = 1 / d.
Proof. transitivity (d * e / d); [field; exact d_nz|]. rewrite d_e. reflexivity. Qed.
Lemma x_e x1 y1 x2 y2 : ed_on x1 y1 -> ed_on x2 y2 -> ed_x x1 y1 x2 y2 = e * (x1 * y2 + x2 * y1) / (e + x1 * x2 * y1 * y2).
Proof.
  intros H1 H2. unfold ed_x. rewrite plus_e. pose proof (e_plus _ _ _ _ H1 H2) as N. pose proof d_nz. pose proof e_nz.
  transitivity ((d * e) * (x1 * y2 + x2 * y1) / (d * (e + x1 * x2 * y1 * y2))); [rewrite d_e|]; field; auto.
Qed.
Lemma y_e x1 y1 x2 y2 : ed_on x1 y1 -> ed_on x2 y2 -> ed_y x1 y1 x2 y2 = e * (y1 * y2 + x1 * x2) / (e - x1 * x2 * y1 * y2).
Proof.
  intros H1 H2. unfold ed_y. rewrite minus_e. pose proof (e_minus _ _ _ _ H1 H2) as N. pose proof d_nz. pose proof e_nz.
  transitivity ((d * e) * (y1 * y2 + x1 * x2) / (d * (e - x1 * x2 * y1 * y2))); [rewrite d_e|]; field; auto.
Qed.
Lemma frac_eq a b c f : b <> 0 -> f <> 0 -> a * f = c * b -> a / b = c / f.
Proof. intros B G H. transitivity (a * f / (b * f)); [field; auto|]. rewrite H. field. auto. Qed.

Lemma ed_closed x1 y1 x2 y2 : ed_on x1 y1 -> ed_on x2 y2 -> ed_on (ed_x x1 y1 x2 y2) (ed_y x1 y1 x2 y2).
Proof.
  intros H1 H2. rewrite x_e, y_e by assumption. apply on_e. pose proof (e_plus _ _ _ _ H1 H2) as A. pose proof (e_minus _ _ _ _ H1 H2) as B. apply on_e in H1, H2.
  field_simplify_eq; [|auto]. ring [H1 H2].
Qed.
Lemma ed_comm_x x1 y1 x2 y2 : ed_x x1 y1 x2 y2 = ed_x x2 y2 x1 y1.
Proof. unfold ed_x. f_equal; ring. Qed.
Lemma ed_comm_y x1 y1 x2 y2 : ed_y x1 y1 x2 y2 = ed_y x2 y2 x1 y1.
Proof. unfold ed_y. f_equal; ring. Qed.
Lemma ed_zero_on : ed_on 0 1.
Proof. unfold ed_on. ring. Qed.
Lemma ed_zero_x x y : ed_x 0 1 x y = x.
Proof. unfold ed_x. field. rewrite ?(F_R FT). intros H. apply one_nz. rewrite <- H. ring. Qed.
Lemma ed_zero_y x y : ed_y 0 1 x y = y.
Proof. unfold ed_y. field. intros H. apply one_nz. rewrite <- H. ring. Qed.
Lemma ed_neg_on x y : ed_on x y -> ed_on (- x) y.
Proof. unfold ed_on. intros H. transitivity (y * y - x * x); [ring|]. rewrite H. ring. Qed.
Lemma ed_neg_x x y : ed_on x y -> ed_x (- x) y x y = 0.
Proof. intros H. pose proof (den_plus _ _ _ _ (ed_neg_on x y H) H). unfold ed_x. transitivity (0 / (1 + d * (- x * x) * (y * y))); [f_equal; ring|field; assumption]. Qed.
Lemma ed_neg_y x y : ed_on x y -> ed_y (- x) y x y = 1.
Proof.
  intros H. pose proof (den_minus _ _ _ _ (ed_neg_on x y H) H) as N. unfold ed_y. transitivity ((1 - d * (- x * x) * (y * y)) / (1 - d * (- x * x) * (y * y))); [f_equal|field; exact N].
  transitivity (y * y - x * x); [ring|]. rewrite H. ring.
Qed.
(** Associativity: both sides as fractions. *)
Lemma ed_left_x x1 y1 x2 y2 x3 y3 : ed_on x1 y1 -> ed_on x2 y2 -> ed_on x3 y3 ->
  let A := e + x1 * x2 * y1 * y2 in let B := e - x1 * x2 * y1 * y2 in let N := x1 * y2 + x2 * y1 in let M := y1 * y2 + x1 * x2 in
  A * B + e * N * M * x3 * y3 <> 0 /\
  ed_x (ed_x x1 y1 x2 y2) (ed_y x1 y1 x2 y2) x3 y3 = e * (N * y3 * B + M * x3 * A) / (A * B + e * N * M * x3 * y3).
Proof.
  intros H1 H2 H3 A B N M. pose proof (ed_closed _ _ _ _ H1 H2) as H12. pose proof (e_plus _ _ _ _ H12 H3) as D. rewrite (x_e _ _ _ _ H12 H3). rewrite (x_e _ _ _ _ H1 H2), (y_e _ _ _ _ H1 H2) in *.
  pose proof (e_plus _ _ _ _ H1 H2) as NA. pose proof (e_minus _ _ _ _ H1 H2) as NB. pose proof e_nz as NE. fold A B N M in D, NA, NB |- *. clear H12. clearbody A B N M.
  assert (A * B + e * N * M * x3 * y3 <> 0) as X.
  { intros Z. apply D. transitivity (e * (A * B + e * N * M * x3 * y3) / (A * B)); [field; auto|]. rewrite Z. field. auto. }
  split; [exact X|]. field. repeat split; auto. intros Z. first [apply X; rewrite <- Z; ring|apply (mul_nz e _ NE X); rewrite <- Z; ring].
Qed.
Lemma ed_left_y x1 y1 x2 y2 x3 y3 : ed_on x1 y1 -> ed_on x2 y2 -> ed_on x3 y3 ->
  let A := e + x1 * x2 * y1 * y2 in let B := e - x1 * x2 * y1 * y2 in let N := x1 * y2 + x2 * y1 in let M := y1 * y2 + x1 * x2 in
  A * B - e * N * M * x3 * y3 <> 0 /\
  ed_y (ed_x x1 y1 x2 y2) (ed_y x1 y1 x2 y2) x3 y3 = e * (M * y3 * A + N * x3 * B) / (A * B - e * N * M * x3 * y3).
Proof.
  intros H1 H2 H3 A B N M. pose proof (ed_closed _ _ _ _ H1 H2) as H12. pose proof (e_minus _ _ _ _ H12 H3) as D. rewrite (y_e _ _ _ _ H12 H3). rewrite (x_e _ _ _ _ H1 H2), (y_e _ _ _ _ H1 H2) in *.
  pose proof (e_plus _ _ _ _ H1 H2) as NA. pose proof (e_minus _ _ _ _ H1 H2) as NB. pose proof e_nz as NE. fold A B N M in D, NA, NB |- *. clear H12. clearbody A B N M.
  assert (A * B - e * N * M * x3 * y3 <> 0) as X.
  { intros Z. apply D. transitivity (e * (A * B - e * N * M * x3 * y3) / (A * B)); [field; auto|]. rewrite Z. field. auto. }
  split; [exact X|]. field. repeat split; auto. intros Z. first [apply X; rewrite <- Z; ring|apply (mul_nz e _ NE X); rewrite <- Z; ring].
Qed.
Lemma ed_assoc_x x1 y1 x2 y2 x3 y3 : ed_on x1 y1 -> ed_on x2 y2 -> ed_on x3 y3 ->
  ed_x x1 y1 (ed_x x2 y2 x3 y3) (ed_y x2 y2 x3 y3) = ed_x (ed_x x1 y1 x2 y2) (ed_y x1 y1 x2 y2) x3 y3.
Proof.
  intros H1 H2 H3. rewrite (ed_comm_x x1 y1). destruct (ed_left_x _ _ _ _ _ _ H2 H3 H1) as [N1 ->]. destruct (ed_left_x _ _ _ _ _ _ H1 H2 H3) as [N2 ->].
  apply frac_eq; [exact N1|exact N2|]. apply on_e in H1, H2, H3. ring [H1 H2 H3].
Qed.
Lemma ed_assoc_y x1 y1 x2 y2 x3 y3 : ed_on x1 y1 -> ed_on x2 y2 -> ed_on x3 y3 ->
  ed_y x1 y1 (ed_x x2 y2 x3 y3) (ed_y x2 y2 x3 y3) = ed_y (ed_x x1 y1 x2 y2) (ed_y x1 y1 x2 y2) x3 y3.
Proof.
  intros H1 H2 H3. rewrite (ed_comm_y x1 y1). destruct (ed_left_y _ _ _ _ _ _ H2 H3 H1) as [N1 ->]. destruct (ed_left_y _ _ _ _ _ _ H1 H2 H3) as [N2 ->].
  apply frac_eq; [exact N1|exact N2|]. apply on_e in H1, H2, H3. ring [H1 H2 H3].
Qed.
End Edwards.

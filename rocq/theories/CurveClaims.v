(** Curve25519 and Ed25519 are what [SpecCurve] says. *)
From Coq Require Import Znumtheory Field.
From Verif Require Export SpecCurve EdLaws.
From Verif Require Import RealClaims PublicFacts.
Local Open Scope Z_scope.

(** The coordinates of a point. *)
Definition cx (p : epoint) : Z := fv (ex p).
Definition cy (p : epoint) : Z := fv (ey p).

Lemma p25519_fp : p25519 = fp.
Proof. reflexivity. Qed.
Lemma modp_fe a b : modp a b <-> fe_of a = fe_of b.
Proof. unfold modp. rewrite p25519_fp. symmetry. apply fe_of_eq. Qed.
Lemma cx_fe p : fe_of (cx p) = ex p.
Proof. apply fe_of_fv. Qed.
Lemma cy_fe p : fe_of (cy p) = ey p.
Proof. apply fe_of_fv. Qed.
Lemma c_range a : 0 <= fv a < p25519.
Proof. rewrite p25519_fp. apply fv_range. Qed.
Lemma coords_inj p q : cx p = cx q -> cy p = cy q -> p = q.
Proof. intros X Y. apply epoint_ext; apply fe_ext; assumption. Qed.
Lemma fe_small x : 0 <= x < p25519 -> fv (fe_of x) = x.
Proof. intros R. rewrite fv_of. apply Z.mod_small. rewrite <- p25519_fp. exact R. Qed.
Lemma fe_121666 : fe_of 121666 = fadd a24 fone.
Proof. unfold a24, fone. rewrite <- fe_of_add. reflexivity. Qed.
Lemma fe_121665 : fe_of 121665 = a24.
Proof. reflexivity. Qed.
Lemma fe_m121665 : fe_of (- 121665) = fopp a24.
Proof. unfold a24. rewrite <- fe_of_opp. reflexivity. Qed.
Lemma fmul_comm' a b : fmul a b = fmul b a.
Proof. ring. Qed.
Lemma fcancel a b c : a <> fzero -> fmul a b = fmul a c -> b = c.
Proof.
  intros N E. apply fsub_z. destruct (fmul_z a (fsub b c)) as [Z|Z]; [|contradiction|exact Z]. transitivity (fsub (fmul a b) (fmul a c)); [ring|]. rewrite E. ring.
Qed.
Lemma a24_d' : fmul (fadd a24 fone) ed_d = fopp a24.
Proof. pose proof a24_d as E. transitivity (fsub (fadd a24 (fmul (fadd a24 fone) ed_d)) a24); [ring|]. rewrite E. ring. Qed.
Ltac spread := repeat (rewrite ?fe_of_mul, ?fe_of_sub, ?fe_of_add, ?fe_121666, ?fe_121665, ?fe_m121665; change (fe_of 1) with fone).
Lemma on_ed_onc x y : on_ed x y <-> onc (fe_of x) (fe_of y).
Proof.
  unfold on_ed. rewrite modp_fe. spread. set (a := fe_of x). set (b := fe_of y). clearbody a b. unfold onc, ed_on. pose proof a24_nz as N. pose proof a24_d' as D.
  set (c := a24) in *. set (d := ed_d) in *. clearbody c d.
  assert (forall e, fmul (fopp c) e = fmul (fadd c fone) (fmul d e)) as R by (intros e; rewrite <- D; ring). rewrite R. split.
  - intros E. apply fcancel in E; [|exact N]. transitivity (fadd (fsub (fsub (fmul b b) (fmul a a)) fone) fone); [ring|]. rewrite E. ring.
  - intros E. f_equal. rewrite E. ring.
Qed.
Lemma points_exactly x y : (exists p, cx p = x /\ cy p = y) <-> 0 <= x < p25519 /\ 0 <= y < p25519 /\ on_ed x y.
Proof.
  split.
  - intros (p & <- & <-). split; [apply c_range|]. split; [apply c_range|]. apply on_ed_onc. rewrite cx_fe, cy_fe. apply epoint_on.
  - intros (X & Y & O). apply on_ed_onc in O. destruct (epoint_at_on _ _ O) as (p & _ & Ex & Ey). exists p. unfold cx, cy. rewrite Ex, Ey. split; apply fe_small; assumption.
Qed.
Lemma sum_exactly p q r : eadd p q = r <-> ed_sum (cx p) (cy p) (cx q) (cy q) (cx r) (cy r).
Proof.
  unfold ed_sum. rewrite !modp_fe. spread. rewrite !cx_fe, !cy_fe. destruct (eadd_xy p q) as [SX SY]. unfold sum_x, ed_x in SX. unfold sum_y, ed_y in SY.
  pose proof (fplus p q) as NP. pose proof (fminus p q) as NM. pose proof a24_nz as N. pose proof a24_d' as D.
  assert (eadd p q = r <-> ex (eadd p q) = ex r /\ ey (eadd p q) = ey r) as ->. { split; [intros ->; auto|intros [? ?]; apply epoint_ext; assumption]. }
  rewrite SX, SY. clear SX SY. set (x := ex p) in *. set (y := ey p) in *. set (x' := ex q) in *. set (y' := ey q) in *. set (x3 := ex r). set (y3 := ey r). clearbody x y x' y' x3 y3.
  set (c := a24) in *. set (d := ed_d) in *. clearbody c d.
  set (k := fmul (fmul d (fmul x x')) (fmul y y')) in *.
  assert (fsub (fadd c fone) (fmul c (fmul (fmul (fmul x x') y) y')) = fmul (fadd c fone) (fadd fone k)) as E1.
  { transitivity (fadd (fadd c fone) (fmul (fmul (fadd c fone) d) (fmul (fmul x x') (fmul y y')))); [rewrite D; ring|unfold k; ring]. }
  assert (fadd (fadd c fone) (fmul c (fmul (fmul (fmul x x') y) y')) = fmul (fadd c fone) (fsub fone k)) as E2.
  { transitivity (fsub (fadd c fone) (fmul (fmul (fadd c fone) d) (fmul (fmul x x') (fmul y y')))); [rewrite D; ring|unfold k; ring]. }
  rewrite E1, E2. clearbody k. split.
  - intros [<- <-]. split; field; assumption.
  - intros [A B]. split.
    + apply (fcancel (fmul (fadd c fone) (fadd fone k))); [apply fmul_nz; assumption|]. rewrite (fmul_comm' _ x3), A. field. exact NP.
    + apply (fcancel (fmul (fadd c fone) (fsub fone k))); [apply fmul_nz; assumption|]. rewrite (fmul_comm' _ y3), B. field. exact NM.
Qed.
Lemma y_one p : ey p = fone -> p = ezero.
Proof.
  intros Y. apply epoint_ext; [|exact Y]. apply square_z. rewrite x_square, Y. unfold fdiv. change (ex ezero) with fzero. ring.
Qed.
Lemma eu_zero : eu ezero = fzero.
Proof. unfold eu. change (ey ezero) with fone. unfold fdiv. replace (fsub fone fone) with fzero by ring. rewrite finv_zero. ring. Qed.
Lemma u_of_fe u y : u_of u y <-> fmul (fe_of u) (fsub fone (fe_of y)) = fadd fone (fe_of y).
Proof. unfold u_of. rewrite modp_fe. spread. reflexivity. Qed.
Lemma x25519_exactly k u p : ~ modp (unle u mod 2 ^ 255) 0 -> u_of (unle u mod 2 ^ 255) (cy p) ->
  exists u', 0 <= u' < p25519 /\ x25519_of k u = lend 32 u' /\
    (emul (clamp k) p = ezero -> u' = 0) /\ (emul (clamp k) p <> ezero -> u_of u' (cy (emul (clamp k) p))).
Proof.
  rewrite modp_fe, u_of_fe, cy_fe. change (fe_of 0) with fzero. intros NZ HU. unfold x25519_of. set (U := fe_of (unle u mod 2 ^ 255)) in *. clearbody U.
  assert (ey p <> fone) as Y1. { intros E. rewrite E in HU. apply ed_two. rewrite <- HU. ring. }
  assert (proper p) as P.
  { split; [exact Y1|]. intros E. rewrite E in HU. apply fmul_z in HU as [Z|Z]; [contradiction|]. apply Y1. symmetry. apply fsub_z, Z. }
  assert (U = eu p) as ->. { unfold eu. rewrite <- HU. field. intros Z. apply Y1. symmetry. apply fsub_z, Z. }
  rewrite mont_u; [|exact P|apply clamp_range]. exists (fv (eu (emul (clamp k) p))). split; [apply c_range|]. split; [reflexivity|]. split.
  - intros ->. rewrite eu_zero. change (fv fzero) with (0 mod fp). apply Z.mod_0_l, fp_nz.
  - intros N. apply u_of_fe. rewrite fe_of_fv, cy_fe. unfold eu. field. intros Z. apply N, y_one. symmetry. apply fsub_z, Z.
Qed.
Lemma decode_exactly b p : edec b = Some p <-> length b = 32%nat /\ modp (unle b mod 2 ^ 255) (cy p) /\ (cx p = 0 \/ cx p mod 2 = unle b / 2 ^ 255).
Proof.
  rewrite modp_fe, cy_fe. unfold edec. destruct (Nat.eqb_spec (length b) 32) as [L|L]; cbn [negb]; [|split; [discriminate|intros (? & _); contradiction]].
  assert (0 <= unle b / 2 ^ 255 < 2) as S.
  { pose proof (unbe_range (rev b)) as R. fold (unle b) in R. unfold zlen in R. rewrite rev_length, L in R. change (256 ^ Z.of_nat 32) with (2 * 2 ^ 255) in R.
    split; [apply Z.div_pos; lia|apply Z.div_lt_upper_bound; lia]. }
  set (s := unle b / 2 ^ 255) in *. set (y := fe_of (unle b mod 2 ^ 255)). clearbody s y. cbv zeta. split.
  - destruct (fsqrt _) as [r|]; [|discriminate]. unfold epoint_at. destruct (bool_dec _ _) as [H|H]; [|discriminate]. intros [= <-]. cbn [ey]. split; [exact L|]. split; [reflexivity|].
    unfold cx. cbn [ex]. destruct (parity r =? s) eqn:E; [right; apply Z.eqb_eq; exact E|]. apply Z.eqb_neq in E.
    destruct (fe_dec r fzero) as [->|N].
    + left. replace (fopp fzero) with fzero by ring. change (fv fzero) with (0 mod fp). apply Z.mod_0_l, fp_nz.
    + right. fold (parity (fopp r)). assert (0 <= parity r < 2) by (apply Z.mod_pos_bound; lia). assert (0 <= parity (fopp r) < 2) by (apply Z.mod_pos_bound; lia).
      assert (parity (fopp r) <> parity r). { intros Q. apply N, parity_opp, Q. } lia.
  - intros (_ & -> & X). rewrite recover_x. destruct (fsqrt_square (ex p)) as (r & -> & E).
    assert ((if parity r =? s then r else fopp r) = ex p) as ->.
    { destruct X as [X|X].
      - assert (ex p = fzero) as Z. { rewrite <- cx_fe, X. reflexivity. } rewrite Z in E |- *. assert (r = fzero) as ->. { apply square_z. rewrite E. ring. } destruct (parity fzero =? s); ring.
      - fold (parity (ex p)) in X. unfold cx in X. fold (parity (ex p)) in X. destruct (square_root _ _ E) as [->| ->]; [rewrite X, Z.eqb_refl; reflexivity|].
        destruct (parity (fopp (ex p)) =? s) eqn:Q; [|ring]. apply Z.eqb_eq in Q. rewrite <- X in Q. apply parity_opp in Q. rewrite Q. ring. }
    destruct (epoint_at_on _ _ (epoint_on p)) as (q & -> & Qx & Qy). f_equal. apply epoint_ext; assumption.
Qed.
Lemma base_is : modp (5 * cy ebase) 4 /\ cx ebase mod 2 = 0 /\ cx ebase = 15112221349535400772501151409588531511454012693041857206046113283949847762202.
Proof.
  assert (cx ebase = 15112221349535400772501151409588531511454012693041857206046113283949847762202) as X by (vm_compute; reflexivity).
  assert (cy ebase = 46316835694926478169428394003475163141307993866256225615783033603165251855960) as Y by (vm_compute; reflexivity).
  rewrite X, Y. split; [|split; [reflexivity|reflexivity]]. unfold modp. apply Z.mod_divide; [rewrite p25519_fp; exact fp_nz|]. vm_compute. reflexivity.
Qed.
Lemma the_primes : prime p25519 /\ prime ed_order.
Proof. rewrite p25519_fp. split; [exact prime_fp|exact prime_order]. Qed.
Lemma the_group : cx ezero = 0 /\ cy ezero = 1 /\
  forall p q r, eadd ezero p = p /\ eadd p q = eadd q p /\ eadd p (eadd q r) = eadd (eadd p q) r /\
    eadd (eneg p) p = ezero /\ cy (eneg p) = cy p /\ modp (cx (eneg p)) (- cx p).
Proof.
  split; [vm_compute; reflexivity|]. split; [vm_compute; reflexivity|]. intros p q r.
  split; [apply eadd_zero|]. split; [apply eadd_comm|]. split; [apply eadd_assoc|]. split; [apply eadd_neg|].
  destruct (eneg_xy p) as [X Y]. split; [unfold cy; rewrite Y; reflexivity|]. rewrite modp_fe, cx_fe, fe_of_opp, cx_fe. exact X.
Qed.
Lemma the_multiples p a b : emul 0 p = ezero /\ emul 1 p = p /\ emul (a + b) p = eadd (emul a p) (emul b p) /\ emul (a * b) p = emul a (emul b p) /\ emul (- a) p = eneg (emul a p).
Proof. split; [reflexivity|]. split; [reflexivity|]. split; [apply emul_add|]. split; [apply emul_mul|apply emul_opp]. Qed.
Lemma dh_exactly a b : x25519_of a (x25519_of b nine) = x25519_of b (x25519_of a nine).
Proof. rewrite !x25519_twice, Z.mul_comm. reflexivity. Qed.
Lemma encode_exactly p : length (eenc p) = 32%nat /\ unle (eenc p) = cy p + 2 ^ 255 * (cx p mod 2).
Proof.
  split; [apply length_le|]. unfold eenc. rewrite unle_le. fold (cy p). unfold parity. fold (cx p). apply Z.mod_small.
  pose proof (c_range (ey p)) as R. fold (cy p) in R. unfold p25519 in R. assert (0 <= cx p mod 2 < 2) by (apply Z.mod_pos_bound; lia). change (256 ^ Z.of_nat 32) with (2 * 2 ^ 255). lia.
Qed.
Lemma clamp_exactly b : (exists j, clamp b = 8 * j /\ 2 ^ 254 <= clamp b < 2 ^ 255) /\ emul (clamp b) ebase <> ezero.
Proof. split; [apply clamp_shape|]. intros E. apply base_order in E. exact (clamp_order b E). Qed.
Lemma the_laws : CurveLaws (K := curve25519) /\ CryptoLaws (C := real (K := curve25519)).
Proof. split; [exact curve25519_laws|exact (real_laws (KL := curve25519_laws))]. Qed.
Lemma base_nine : u_of (unle nine mod 2 ^ 255) (cy ebase) /\ ~ modp (unle nine mod 2 ^ 255) 0 /\ edec (eenc ebase) = Some ebase.
Proof.
  split; [|split; [|apply edec_enc]].
  - apply u_of_fe. rewrite nine_u, cy_fe. unfold eu. destruct base_proper as [P _]. field. intros Z. apply P. symmetry. apply fsub_z, Z.
  - replace (unle nine mod 2 ^ 255) with 9 by (vm_compute; reflexivity). intros D. apply Z.divide_pos_le in D; [|lia]. unfold p25519 in D. lia.
Qed.

(** *** common/public over them *)
Notation real25519 := (real (K := curve25519)).
Lemma roundtrip_25519 d seed m g ep nonce g' :
  length d = 32%nat -> length ep = 32%nat -> length nonce = 24%nat -> delivers g (ep ++ nonce) g' -> 1 <= zlen m < 2 ^ 31 ->
  exists c, pub_encrypt (C := real25519) (kPub (keypair (C := real25519) d seed)) m g = Ret (Some c, g') /\
    pub_decrypt (C := real25519) (Some (keypair (C := real25519) d seed)) c = Ret (Some m).
Proof.
  intros Hd He Hn HG Hm. destruct (encrypt_decrypt (C := real25519) (L := proj2 the_laws) d seed m g ep nonce g' Hd He Hn HG) as (c & E & _ & D).
  exists c. split; [exact E|]. rewrite D. apply decide_True. exact Hm.
Qed.
Lemma sign_25519 d seed m : length seed = 32%nat ->
  exists sig, sign (C := real25519) (Some (keypair (C := real25519) d seed)) m = Ret (Some sig) /\
    length sig = 64%nat /\ verify (C := real25519) (kPub (keypair (C := real25519) d seed)) m sig = Ret true.
Proof. exact (sign_verify (C := real25519) (L := proj2 the_laws) d seed m). Qed.
Lemma exchange_25519 da sa db sb : length da = 32%nat -> length db = 32%nat ->
  key_exchange (C := real25519) (Some (keypair (C := real25519) da sa)) (kPub (keypair (C := real25519) db sb)) =
  key_exchange (C := real25519) (Some (keypair (C := real25519) db sb)) (kPub (keypair (C := real25519) da sa)).
Proof.
  intros Ha Hb. destruct (real_exchange (KL := curve25519_laws) da sa db sb Ha Hb) as [E1 E2]. rewrite E1, E2. reflexivity.
Qed.

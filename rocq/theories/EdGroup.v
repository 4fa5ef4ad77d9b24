(** The points of Ed25519 are a group. *)
From Coq Require Import Znumtheory Field Eqdep_dec.
From Verif Require Export Ed25519 FpFacts Edwards.
Local Open Scope Z_scope.

(** *** A cheap reduction: 2^255 is 19 *)
Definition fold255 (z : Z) : Z := Z.land z (2 ^ 255 - 1) + 19 * Z.shiftr z 255.
Definition red (z : Z) : Z := fold255 (fold255 z).
Lemma fp_eq : fp = 2 ^ 255 - 19.
Proof. reflexivity. Qed.
Lemma fold255_cong z : cong fp (fold255 z) z.
Proof.
  unfold fold255. change (2 ^ 255 - 1) with (Z.ones 255). rewrite Z.land_ones, Z.shiftr_div_pow2 by lia.
  exists (- (z / 2 ^ 255)). rewrite fp_eq. pose proof (Z.div_mod z (2 ^ 255) ltac:(lia)). lia.
Qed.
Lemma red_cong z : cong fp (red z) z.
Proof. unfold red. eapply cong_trans; apply fold255_cong. Qed.
Lemma red_of z : fe_of (red z) = fe_of z.
Proof. apply fe_of_eq, red_cong. Qed.
Lemma reduces x y : (red x =? red y) = true -> fe_of x = fe_of y.
Proof. intros E. apply Z.eqb_eq in E. rewrite <- (red_of x), <- (red_of y), E. reflexivity. Qed.
Lemma vanishes x : (x mod fp =? 0) = true -> fe_of x = fzero.
Proof. intros E. apply Z.eqb_eq in E. apply fe_of_zero. apply Z.mod_divide; [exact fp_nz|exact E]. Qed.

(** *** The constants *)
Definition zd : Z := 37095705934669439343138083508754565189542113879843219016388785533085940283555.
Definition ze : Z := 29203323570479832313932222820853031755424015489030106335172286495629888845891.
Definition zi : Z := 19681161376707505956807079304988542015446066515923890162744021073123829784752.
Definition ed_e : fe := fe_of ze.
Lemma ed_d_of : ed_d = fe_of zd.
Proof. reflexivity. Qed.
Lemma ed_i_sq : fmul ed_i ed_i = fopp fone.
Proof.
  change ed_i with (fe_of zi). unfold fone. rewrite <- fe_of_mul, <- fe_of_opp. apply fe_of_eq. apply Z.mod_divide; [exact fp_nz|]. vm_compute. reflexivity.
Qed.
Lemma ed_d_e : fmul ed_d ed_e = fone.
Proof.
  rewrite ed_d_of. unfold ed_e, fone. rewrite <- fe_of_mul. apply fe_of_eq. apply Z.mod_divide; [exact fp_nz|]. vm_compute. reflexivity.
Qed.
Lemma ed_two : fadd fone fone <> fzero.
Proof.
  unfold fone. rewrite <- fe_of_add. intros E. apply fe_of_zero in E. apply Z.divide_pos_le in E; [|lia]. pose proof fp_big. lia.
Qed.
(** d is not a square: d^(2^254) is - d^10, and 2^254 is (fp - 1) / 2 + 10. *)
Fixpoint squarings (n : nat) (z : Z) : Z :=
  match n with
  | O => z
  | S n => squarings n (red (z * z))
  end.
Lemma squarings_cong n z : cong fp (squarings n z) (z ^ 2 ^ Z.of_nat n).
Proof.
  revert z. induction n as [|n IH]; intros z.
  - cbn [squarings]. change (2 ^ Z.of_nat 0) with 1. rewrite Z.pow_1_r. apply cong_refl.
  - cbn [squarings]. eapply cong_trans; [apply IH|]. rewrite Nat2Z.inj_succ, Z.pow_succ_r by lia. rewrite Z.pow_mul_r by lia.
    apply cong_pow; [lia|]. rewrite Z.pow_2_r. apply red_cong.
Qed.
Lemma squarings_d : let d2 := red (zd * zd) in let d4 := red (d2 * d2) in ((squarings 254 zd + red (d4 * d4) * d2) mod fp =? 0) = true.
Proof. vm_compute. reflexivity. Qed.
Lemma d_power D : let d2 := red (D * D) in let d4 := red (d2 * d2) in ((squarings 254 D + red (d4 * d4) * d2) mod fp =? 0) = true ->
  cong fp (D ^ 2 ^ Z.of_nat 254 + D * D * D * D * D * D * D * D * D * D) 0.
Proof.
  cbv zeta. intros E. apply Z.eqb_eq in E. apply Z.mod_divide in E; [|exact fp_nz].
  apply cong_trans with (squarings 254 D + red (red (red (D * D) * red (D * D)) * red (red (D * D) * red (D * D))) * red (D * D)).
  - apply cong_sym. apply cong_add; [apply squarings_cong|].
    replace (D * D * D * D * D * D * D * D * D * D) with (((D * D) * (D * D)) * ((D * D) * (D * D)) * (D * D)) by ring.
    assert (cong fp (red (D * D)) (D * D)) as C2 by apply red_cong.
    assert (cong fp (red (red (D * D) * red (D * D))) ((D * D) * (D * D))) as C4.
    { eapply cong_trans; [apply red_cong|]. apply cong_mul; exact C2. }
    apply cong_mul; [|exact C2]. eapply cong_trans; [apply red_cong|]. apply cong_mul; exact C4.
  - unfold cong. rewrite Z.sub_0_r. exact E.
Qed.
Lemma nonsquare D h z : 0 <= h -> 2 * h = (fp - 1) + 20 -> ~ (fp | D) -> cong fp (D ^ h + D * D * D * D * D * D * D * D * D * D) 0 -> cong fp (z * z) D -> False.
Proof.
  intros H0 H1 UD P E.
  assert (~ (fp | z)) as U. { intros Dv. apply UD. destruct E as [k E]. replace D with (z * z - k * fp) by lia. apply Z.divide_sub_r; [apply Z.divide_mul_l; exact Dv|apply Z.divide_factor_r]. }
  replace (D * D * D * D * D * D * D * D * D * D) with (D ^ 10) in P by ring.
  assert (cong fp (D ^ h) (D ^ 10)) as P'.
  { eapply cong_trans; [apply cong_sym, (cong_pow fp (z * z) D h H0 E)|].
    eapply cong_trans; [|apply (cong_pow fp (z * z) D 10 ltac:(lia) E)].
    replace (z * z) with (z ^ 2) by ring. rewrite <- (Z.pow_mul_r z 2 h), <- (Z.pow_mul_r z 2 10) by lia. rewrite H1.
    pose proof fp_big. rewrite Z.pow_add_r by lia. rewrite <- (Z.mul_1_l (z ^ (2 * 10))). apply cong_mul; [|apply cong_refl]. apply fermat; [exact prime_fp|exact U]. }
  assert (cong fp (2 * D ^ 10) 0) as Q.
  { eapply cong_trans; [|exact P]. replace (2 * D ^ 10) with (D ^ 10 + D ^ 10) by ring. apply cong_add; [apply cong_sym; exact P'|apply cong_refl]. }
  unfold cong in Q. rewrite Z.sub_0_r in Q. pose proof prime_fp as PF. apply prime_mult in Q; [|exact PF]. destruct Q as [Q|Q].
  - apply Z.divide_pos_le in Q; [|lia]. pose proof fp_big. lia.
  - apply UD. assert (forall n : nat, (fp | D ^ Z.of_nat n) -> (fp | D)) as G.
    { intros n. induction n as [|n IH].
      - change (D ^ Z.of_nat 0) with 1. intros V. apply Z.divide_pos_le in V; [|lia]. pose proof fp_big. lia.
      - rewrite Nat2Z.inj_succ, Z.pow_succ_r by lia. intros V. apply prime_mult in V; [|exact PF]. destruct V as [V|V]; [exact V|apply IH, V]. }
    apply (G 10%nat). exact Q.
Qed.
Lemma zd_unit : ~ (fp | zd).
Proof. intros D. apply Z.mod_divide in D; [|exact fp_nz]. vm_compute in D. discriminate. Qed.
Lemma half_fp : 2 * 2 ^ Z.of_nat 254 = (fp - 1) + 20.
Proof. vm_compute. reflexivity. Qed.
Lemma ed_d_ns x : fmul x x <> ed_d.
Proof.
  intros E. rewrite <- (fe_of_fv x) in E. rewrite <- fe_of_mul, ed_d_of in E. apply fe_of_eq in E.
  apply (nonsquare zd (2 ^ Z.of_nat 254) (fv x)); [apply Z.pow_nonneg; lia|exact half_fp|exact zd_unit|apply d_power, squarings_d|exact E].
Qed.

(** *** The group *)
Definition onc (x y : fe) : Prop := ed_on fone fadd fmul fsub ed_d x y.
Definition sum_x : fe -> fe -> fe -> fe -> fe := ed_x fone fadd fmul fdiv ed_d.
Definition sum_y : fe -> fe -> fe -> fe -> fe := ed_y fone fadd fmul fsub fdiv ed_d.
Lemma fe_eqb_eq a b : fe_eqb a b = true <-> a = b.
Proof. unfold fe_eqb. rewrite Z.eqb_eq. split; [apply fe_ext|intros ->; reflexivity]. Qed.
Lemma on_curve_iff x y : on_curve x y = true <-> onc x y.
Proof. apply fe_eqb_eq. Qed.
Lemma epoint_ext p q : ex p = ex q -> ey p = ey q -> p = q.
Proof.
  destruct p as [x y H], q as [x' y' H']. cbn [ex ey]. intros -> ->. f_equal. apply UIP_dec. intros [] []; auto; right; discriminate.
Qed.
Lemma epoint_on p : onc (ex p) (ey p).
Proof. apply on_curve_iff, e_on. Qed.
Lemma epoint_at_on x y : onc x y -> exists p, epoint_at x y = Some p /\ ex p = x /\ ey p = y.
Proof.
  intros H. apply on_curve_iff in H. unfold epoint_at. destruct (bool_dec (on_curve x y) true) as [E|E]; [|contradiction].
  eexists. split; [reflexivity|]. split; reflexivity.
Qed.
Lemma onc_closed x1 y1 x2 y2 : onc x1 y1 -> onc x2 y2 -> onc (sum_x x1 y1 x2 y2) (sum_y x1 y1 x2 y2).
Proof. exact (ed_closed _ _ _ _ _ _ _ _ ffield fe_dec ed_d ed_e ed_i ed_two ed_i_sq ed_d_e ed_d_ns x1 y1 x2 y2). Qed.
Lemma eadd_xy p q : ex (eadd p q) = sum_x (ex p) (ey p) (ex q) (ey q) /\ ey (eadd p q) = sum_y (ex p) (ey p) (ex q) (ey q).
Proof.
  destruct (epoint_at_on _ _ (onc_closed _ _ _ _ (epoint_on p) (epoint_on q))) as (r & E & Ex & Ey).
  unfold eadd. change (esum_x p q) with (sum_x (ex p) (ey p) (ex q) (ey q)). change (esum_y p q) with (sum_y (ex p) (ey p) (ex q) (ey q)).
  rewrite E. split; assumption.
Qed.
Lemma eneg_xy p : ex (eneg p) = fopp (ex p) /\ ey (eneg p) = ey p.
Proof.
  destruct (epoint_at_on _ _ (ed_neg_on _ _ _ _ _ _ _ _ ffield ed_d _ _ (epoint_on p))) as (r & E & Ex & Ey).
  unfold eneg. rewrite E. split; assumption.
Qed.
Lemma eadd_comm p q : eadd p q = eadd q p.
Proof.
  destruct (eadd_xy p q) as [X1 Y1], (eadd_xy q p) as [X2 Y2]. apply epoint_ext.
  - rewrite X1, X2. apply (ed_comm_x _ _ _ _ _ _ _ _ ffield).
  - rewrite Y1, Y2. apply (ed_comm_y _ _ _ _ _ _ _ _ ffield).
Qed.
Lemma eadd_zero p : eadd ezero p = p.
Proof.
  destruct (eadd_xy ezero p) as [X Y]. apply epoint_ext; [rewrite X|rewrite Y].
  - apply (ed_zero_x _ _ _ _ _ _ _ _ ffield).
  - apply (ed_zero_y _ _ _ _ _ _ _ _ ffield).
Qed.
Lemma eadd_assoc p q r : eadd p (eadd q r) = eadd (eadd p q) r.
Proof.
  destruct (eadd_xy p (eadd q r)) as [X1 Y1], (eadd_xy (eadd p q) r) as [X2 Y2], (eadd_xy q r) as [X3 Y3], (eadd_xy p q) as [X4 Y4].
  apply epoint_ext.
  - rewrite X1, X2, X3, Y3, X4, Y4. apply (ed_assoc_x _ _ _ _ _ _ _ _ ffield fe_dec ed_d ed_e ed_i ed_two ed_i_sq ed_d_e ed_d_ns); apply epoint_on.
  - rewrite Y1, Y2, X3, Y3, X4, Y4. apply (ed_assoc_y _ _ _ _ _ _ _ _ ffield fe_dec ed_d ed_e ed_i ed_two ed_i_sq ed_d_e ed_d_ns); apply epoint_on.
Qed.
Lemma eadd_neg p : eadd (eneg p) p = ezero.
Proof.
  destruct (eadd_xy (eneg p) p) as [X Y], (eneg_xy p) as [NX NY]. apply epoint_ext; [rewrite X|rewrite Y]; rewrite NX, NY.
  - apply (ed_neg_x _ _ _ _ _ _ _ _ ffield fe_dec ed_d ed_i ed_two ed_i_sq ed_d_ns), epoint_on.
  - apply (ed_neg_y _ _ _ _ _ _ _ _ ffield fe_dec ed_d ed_i ed_two ed_i_sq ed_d_ns), epoint_on.
Qed.
Lemma eadd_cancel p q r : eadd p q = eadd p r -> q = r.
Proof. intros E. rewrite <- (eadd_zero q), <- (eadd_zero r), <- (eadd_neg p), <- !eadd_assoc, E. reflexivity. Qed.
Lemma eneg_add p q : eneg (eadd p q) = eadd (eneg p) (eneg q).
Proof.
  apply (eadd_cancel (eadd p q)). rewrite (eadd_comm _ (eneg (eadd p q))), eadd_neg.
  rewrite (eadd_comm p q), <- eadd_assoc, (eadd_assoc p), (eadd_comm p (eneg p)), eadd_neg, eadd_zero, eadd_comm, eadd_neg. reflexivity.
Qed.
Lemma eneg_zero : eneg ezero = ezero.
Proof. rewrite <- (eadd_zero (eneg ezero)), eadd_comm. apply eadd_neg. Qed.
Lemma eneg_neg p : eneg (eneg p) = p.
Proof. apply (eadd_cancel (eneg p)). rewrite eadd_neg, eadd_comm, eadd_neg. reflexivity. Qed.

(** Multiples. *)
Lemma emulp_succ n p : emulp (Pos.succ n) p = eadd p (emulp n p).
Proof.
  revert p. induction n as [n IH|n IH|]; intros p; cbn [Pos.succ emulp]; [|reflexivity|reflexivity].
  rewrite IH, eadd_assoc. reflexivity.
Qed.
Lemma emul_succ z p : emul (Z.succ z) p = eadd p (emul z p).
Proof.
  destruct z as [|n|n].
  - cbn. rewrite eadd_comm, eadd_zero. reflexivity.
  - rewrite <- Pos2Z.inj_succ. cbn [emul]. apply emulp_succ.
  - destruct (Pos.succ_pred_or n) as [->|E].
    + cbn. rewrite eadd_comm, eadd_neg. reflexivity.
    + rewrite <- E. generalize (Pos.pred n). intros k. replace (Z.succ (Z.neg (Pos.succ k))) with (Z.neg k) by lia.
      cbn [emul]. rewrite emulp_succ, eneg_add, eadd_assoc, (eadd_comm p), eadd_neg, eadd_zero. reflexivity.
Qed.
Lemma emul_add a b p : emul (a + b) p = eadd (emul a p) (emul b p).
Proof.
  revert a. apply Z.peano_ind.
  - rewrite eadd_zero. reflexivity.
  - intros a IH. rewrite Z.add_succ_l, !emul_succ, IH, eadd_assoc. reflexivity.
  - intros a IH. apply (eadd_cancel p). rewrite eadd_assoc, <- !emul_succ, <- Z.add_succ_l, Z.succ_pred. exact IH.
Qed.
Lemma emul_one p : emul 1 p = p.
Proof. reflexivity. Qed.
Lemma emul_dist a p q : emul a (eadd p q) = eadd (emul a p) (emul a q).
Proof.
  assert (forall a, emul (Z.succ a) (eadd p q) = eadd (emul (Z.succ a) p) (emul (Z.succ a) q) <-> emul a (eadd p q) = eadd (emul a p) (emul a q)) as S.
  { intros b. rewrite !emul_succ. rewrite <- (eadd_assoc p (emul b p)), (eadd_assoc (emul b p) q), (eadd_comm (emul b p) q), <- (eadd_assoc q (emul b p)), (eadd_assoc p q).
    split; [apply eadd_cancel|intros ->; reflexivity]. }
  revert a. apply Z.peano_ind; [cbn; rewrite eadd_zero; reflexivity| |].
  - intros a IH. apply S, IH.
  - intros a IH. apply S. rewrite Z.succ_pred. exact IH.
Qed.
Lemma emul_mul a b p : emul (a * b) p = emul a (emul b p).
Proof.
  revert a. apply Z.peano_ind; [reflexivity| |].
  - intros a IH. rewrite Z.mul_succ_l, Z.add_comm, emul_add, emul_succ, IH. reflexivity.
  - intros a IH. apply (eadd_cancel (emul b p)). rewrite <- emul_succ, Z.succ_pred, <- IH, <- emul_add. f_equal. lia.
Qed.
Lemma emul_opp a p : emul (- a) p = eneg (emul a p).
Proof. apply (eadd_cancel (emul a p)). rewrite <- emul_add, Z.add_opp_diag_r, eadd_comm, eadd_neg. reflexivity. Qed.

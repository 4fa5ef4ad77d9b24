(** Facts about hexadecimal and decimal text. *)
From Verif Require Export Text SpecText BytesFacts.
Local Open Scope Z_scope.

Lemma hexdigit_bz n : 0 <= n < 16 -> bz (hexdigit n) = if decide (n < 10) then 48 + n else 87 + n.
Proof. intros H. unfold hexdigit. rewrite bz_zb. case_decide; lia. Qed.
Lemma unhex_hexdigit n : 0 <= n < 16 -> unhexdigit (hexdigit n) = Some n.
Proof.
  intros H. unfold unhexdigit. rewrite (hexdigit_bz n H).
  destruct (decide (n < 10)); repeat case_decide; try (f_equal; lia); lia.
Qed.
Lemma hex_encode_cons x b : hex_encode (x :: b) = hexdigit (bz x / 16) :: hexdigit (bz x mod 16) :: hex_encode b.
Proof. reflexivity. Qed.
Lemma hex_roundtrip b : hex_decode (hex_encode b) = Some b.
Proof.
  induction b as [|x b IH]; [reflexivity|]. rewrite hex_encode_cons. cbn [hex_decode].
  pose proof (bz_range x). rewrite !unhex_hexdigit by lia. rewrite IH. do 2 f_equal.
  rewrite <- (zb_bz x) at 3. f_equal. lia.
Qed.
Lemma hex_encode_inj a b : hex_encode a = hex_encode b -> a = b.
Proof. intros H. apply (f_equal hex_decode) in H. rewrite !hex_roundtrip in H. congruence. Qed.
Lemma length_hex b : length (hex_encode b) = (2 * length b)%nat.
Proof. induction b as [|x b IH]; [reflexivity|]. rewrite hex_encode_cons. cbn [length]. lia. Qed.
Lemma two_step {A} (P : list A -> Prop) :
  P [] -> (forall a, P [a]) -> (forall a b l, P l -> P (a :: b :: l)) -> forall l, P l.
Proof.
  intros H0 H1 H2. assert (forall l, P l /\ forall a, P (a :: l)) as H.
  { induction l as [|b l [IH1 IH2]]; split; auto. }
  intros l. apply H.
Qed.
Lemma length_hex_decode s b : hex_decode s = Some b -> length s = (2 * length b)%nat.
Proof.
  revert b. induction s as [|a|a c s IH] using two_step; intros b; cbn [hex_decode]; [intros [= <-]; reflexivity|discriminate|].
  destruct (unhexdigit a), (unhexdigit c), (hex_decode s) as [r|]; try discriminate.
  intros [= <-]. cbn [length]. rewrite (IH r eq_refl). lia.
Qed.

(** Decimal *)

Lemma fold_dval s acc :
  fold_left (fun acc b => 10 * acc + (bz b - 48)) s acc = acc * 10 ^ zlen s + dval s.
Proof.
  unfold dval. revert acc. induction s as [|b s IH]; intros acc; cbn [fold_left].
  - unfold zlen. cbn. lia.
  - rewrite IH, (IH (10 * 0 + _)). unfold zlen. cbn [length]. rewrite Nat2Z.inj_succ, Z.pow_succ_r by lia. ring.
Qed.
Lemma dval_cons b s : dval (b :: s) = (bz b - 48) * 10 ^ zlen s + dval s.
Proof. unfold dval at 1. cbn [fold_left]. rewrite fold_dval. f_equal. Qed.
Lemma dval_app a b : dval (a ++ b) = dval a * 10 ^ zlen b + dval b.
Proof. unfold dval at 1. rewrite fold_left_app. rewrite fold_dval. reflexivity. Qed.
Lemma dval_range s : Forall is_digit s -> 0 <= dval s < 10 ^ zlen s.
Proof.
  induction 1 as [|b s Hb Hs IH]; [vm_compute; split; congruence|]. rewrite dval_cons. unfold is_digit in Hb.
  unfold zlen in *. cbn [length]. rewrite Nat2Z.inj_succ, Z.pow_succ_r by lia.
  pose proof (Z.pow_pos_nonneg 10 (Z.of_nat (length s))). nia.
Qed.
Lemma dval_inj a b : Forall is_digit a -> Forall is_digit b -> length a = length b -> dval a = dval b -> a = b.
Proof.
  intros Ha. revert b. induction Ha as [|x a Hx Ha IH]; intros [|y b] Hb Hl; cbn in Hl; try discriminate; [reflexivity|].
  inversion_clear Hb as [|? ? Hy Hb']. rewrite !dval_cons. injection Hl as Hl.
  pose proof (dval_range a Ha) as Ra. pose proof (dval_range b Hb') as Rb.
  unfold zlen in *. rewrite Hl in *. unfold is_digit in *. intros E.
  assert (bz x = bz y) by nia. f_equal; [apply bz_inj; auto|]. apply IH; auto. nia.
Qed.
Lemma dval_zeros n : dval (replicate n x30) = 0 /\ Forall is_digit (replicate n x30).
Proof.
  induction n as [|n [IH1 IH2]]; [split; [reflexivity|constructor]|].
  split; [cbn [replicate]; rewrite dval_cons, IH1; reflexivity|]. constructor; auto.
  unfold is_digit. change (bz x30) with 48. lia.
Qed.

Lemma show_fuel_spec fuel z acc :
  0 <= z < 2 ^ Z.of_nat fuel -> Forall is_digit acc ->
  Forall is_digit (show_fuel fuel z acc) /\ dval (show_fuel fuel z acc) = z * 10 ^ zlen acc + dval acc.
Proof.
  revert z acc. induction fuel as [|fuel IH]; intros z acc Hz Ha.
  - cbn in Hz. assert (z = 0) as -> by lia. cbn [show_fuel]. split; auto.
  - cbn [show_fuel].
    assert (bz (zb (48 + z mod 10)) = 48 + z mod 10) as E by (rewrite bz_zb; lia).
    assert (Forall is_digit (zb (48 + z mod 10) :: acc)) as Ha'.
    { constructor; auto. unfold is_digit. rewrite E. lia. }
    case_decide as H.
    + split; auto. rewrite dval_cons, E. f_equal. f_equal. lia.
    + rewrite Nat2Z.inj_succ, Z.pow_succ_r in Hz by lia.
      destruct (IH (z / 10) _ ltac:(lia) Ha') as [H1 H2]. split; auto.
      rewrite H2, dval_cons, E. unfold zlen. cbn [length]. rewrite Nat2Z.inj_succ, Z.pow_succ_r by lia.
      pose proof (Z.div_mod z 10). replace (z * 10 ^ Z.of_nat (length acc)) with ((10 * (z / 10) + z mod 10) * 10 ^ Z.of_nat (length acc)) by (f_equal; lia). ring.
Qed.
Lemma show_spec z : 0 <= z -> Forall is_digit (show z) /\ dval (show z) = z.
Proof.
  intros H. unfold show. destruct (show_fuel_spec (S (Z.to_nat (Z.log2 z))) z []) as [H1 H2].
  - split; auto. rewrite Nat2Z.inj_succ, Z2Nat.id by apply Z.log2_nonneg.
    destruct (decide (z = 0)) as [->|]; [cbn; lia|]. apply Z.log2_spec. lia.
  - constructor.
  - split; auto. rewrite H2. change (zlen (@nil byte)) with 0. change (dval []) with 0. lia.
Qed.

(** No leading zero: a number below 10^n has at most max n 1 digits. *)
Lemma show_fuel_length fuel z acc n :
  0 <= z < 10 ^ Z.of_nat (S n) -> (length (show_fuel fuel z acc) <= S n + length acc)%nat.
Proof.
  revert z acc n. induction fuel as [|fuel IH]; intros z acc n Hz; cbn [show_fuel]; [lia|].
  case_decide as H; [cbn [length]; lia|].
  destruct n as [|n]; [cbn in Hz; lia|].
  etransitivity; [apply (IH _ _ n)|cbn [length]; lia].
  rewrite (Nat2Z.inj_succ (S n)), Z.pow_succ_r in Hz by lia. lia.
Qed.
Lemma show_length z n : 0 <= z < 10 ^ Z.of_nat (S n) -> (length (show z) <= S n)%nat.
Proof. intros H. unfold show. pose proof (show_fuel_length (S (Z.to_nat (Z.log2 z))) z [] n H). cbn [length] in *. lia. Qed.

Lemma pad0_spec n z : 0 <= z < 10 ^ Z.of_nat (S n) ->
  length (pad0 (S n) (show z)) = S n /\ Forall is_digit (pad0 (S n) (show z)) /\ dval (pad0 (S n) (show z)) = z.
Proof.
  intros H. unfold pad0. pose proof (show_length z n H). destruct (show_spec z ltac:(lia)) as [H1 H2].
  destruct (dval_zeros (S n - length (show z))) as [Z1 Z2]. split; [|split].
  - rewrite app_length, replicate_length. lia.
  - apply Forall_app. auto.
  - rewrite dval_app, Z1, H2. lia.
Qed.

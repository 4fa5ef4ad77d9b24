(** Facts about DER. *)
From Verif Require Export Der SpecDer BytesFacts.
Local Open Scope Z_scope.

Lemma pow256_2 k : 256 ^ k = 2 ^ (8 * k).
Proof. destruct (Z.le_gt_cases 0 k); [rewrite Z.pow_mul_r by lia; reflexivity|]. rewrite !Z.pow_neg_r by lia. reflexivity. Qed.

Lemma be_cong n a b : a mod 256 ^ Z.of_nat n = b mod 256 ^ Z.of_nat n -> be n a = be n b.
Proof. intros E. apply unbe_inj; [rewrite !length_be; reflexivity|]. rewrite !unbe_be. exact E. Qed.

(** *** Lengths *)
Lemma length_length_range f : forall n, 0 <= n < 256 ^ (Z.of_nat f + 1) ->
  let k := length_length f n in (1 <= k)%nat /\ (n = 0 /\ k = 1%nat \/ 256 ^ (Z.of_nat k - 1) <= n) /\ n < 256 ^ Z.of_nat k.
Proof.
  induction f as [|f IH]; intros n H; cbn [length_length]; cbv zeta.
  - change (256 ^ (Z.of_nat 0 + 1)) with 256 in H. change (Z.of_nat 1) with 1.
    change (256 ^ (1 - 1)) with 1. change (256 ^ 1) with 256. lia.
  - case_decide as D.
    + destruct (IH (n / 256)) as (A & B & E).
      { rewrite Nat2Z.inj_succ in H. replace (Z.succ (Z.of_nat f) + 1) with (Z.of_nat f + 1 + 1) in H by lia.
        rewrite (Z.pow_add_r 256 (Z.of_nat f + 1) 1) in H by lia. change (256 ^ 1) with 256 in H.
        split; [lia|]. apply Z.div_lt_upper_bound; lia. }
      set (k := length_length f (n / 256)) in *. split; [lia|].
      rewrite Nat2Z.inj_succ. unfold Z.succ.
      assert (256 ^ (Z.of_nat k + 1) = 256 * 256 ^ Z.of_nat k) as P by (rewrite Z.pow_add_r by lia; change (256 ^ 1) with 256; lia).
      rewrite P. replace (Z.of_nat k + 1 - 1) with (Z.of_nat k) by lia. split.
      * right. destruct B as [[B _]|B]; [lia|].
        assert (256 ^ Z.of_nat k = 256 * 256 ^ (Z.of_nat k - 1)) as P2.
        { replace (Z.of_nat k) with (Z.of_nat k - 1 + 1) at 1 by lia. rewrite Z.pow_add_r by lia. change (256 ^ 1) with 256. lia. }
        rewrite P2. pose proof (Z.mul_div_le n 256). lia.
      * pose proof (Z.mod_pos_bound n 256). pose proof (Z.div_mod n 256). lia.
    + change (Z.of_nat 1) with 1. change (256 ^ (1 - 1)) with 1. change (256 ^ 1) with 256. lia.
Qed.
Lemma pow256_unique n j k : 256 ^ (Z.of_nat j - 1) <= n < 256 ^ Z.of_nat j -> 256 ^ (Z.of_nat k - 1) <= n < 256 ^ Z.of_nat k -> j = k.
Proof.
  intros A B. destruct (Nat.lt_trichotomy j k) as [L|[L|L]]; [|assumption|]; exfalso.
  - assert (256 ^ Z.of_nat j <= 256 ^ (Z.of_nat k - 1)) by (apply Z.pow_le_mono_r; lia). lia.
  - assert (256 ^ Z.of_nat k <= 256 ^ (Z.of_nat j - 1)) by (apply Z.pow_le_mono_r; lia). lia.
Qed.
Lemma length_length_eq n k : 0 < n < 2 ^ 64 -> length_length 7 n = k <-> 256 ^ (Z.of_nat k - 1) <= n < 256 ^ Z.of_nat k.
Proof.
  intros H. destruct (length_length_range 7 n) as (A & B & E); [change (256 ^ (Z.of_nat 7 + 1)) with (2 ^ 64); lia|].
  split; [intros <-; lia|]. intros K. apply (pow256_unique n); lia.
Qed.
Lemma der_length_octets n l : 0 <= n < 2 ^ 64 -> length_octets n l <-> l = der_length n.
Proof.
  intros H. unfold der_length. split.
  - intros X. inversion X as [m L|m k L K]; subst; [rewrite decide_False by lia; reflexivity|]. rewrite decide_True by lia.
    apply length_length_eq in K as ->; [reflexivity|lia].
  - intros ->. case_decide; [|constructor; lia]. constructor; [lia|]. apply length_length_eq; [lia|reflexivity].
Qed.
Lemma length_octets_fun n l l' : length_octets n l -> length_octets n l' -> l = l'.
Proof.
  intros X H. inversion X as [m L|m k L K]; inversion H as [m' L'|m' k' L' K']; subst; try lia; [reflexivity|].
  rewrite (pow256_unique _ _ _ K K'). reflexivity.
Qed.

Lemma length_bytes_inv n : forall acc s l r, 0 <= acc -> length_bytes n acc s = Some (l, r) ->
  exists p, length p = n /\ s = p ++ r /\ l = unbe_acc acc p /\ (n <> O -> 0 < l < 2 ^ 31) /\
    (forall b q, p = b :: q -> acc = 0 -> b <> x00).
Proof.
  induction n as [|n IH]; intros acc s l r H0 E; cbn [length_bytes] in E.
  - injection E as <- <-. exists []. split_and!; [reflexivity|reflexivity|reflexivity|intros ?; congruence|intros ? ? [=]].
  - destruct s as [|b s]; [discriminate E|]. case_decide as D; [discriminate E|]. cbv zeta in E.
    pose proof (bz_range b). case_decide as D2; [discriminate E|].
    apply IH in E as (p & L & -> & -> & R & _); [|lia].
    exists (b :: p). split_and!; [cbn; lia|reflexivity|reflexivity| |].
    + intros _. destruct n as [|n]; [|apply R; lia]. destruct p; [|discriminate L]. cbn [unbe_acc].
      change (2 ^ 31) with (2 ^ 23 * 256). lia.
    + intros b' q [= <- <-] A ->. apply D2. rewrite A. reflexivity.
Qed.
Lemma length_bytes_long n s l r : length_bytes n 0 s = Some (l, r) -> n <> O ->
  256 ^ (Z.of_nat n - 1) <= l < 256 ^ Z.of_nat n /\ 0 < l < 2 ^ 31 /\ s = be n l ++ r.
Proof.
  intros E N. apply length_bytes_inv in E as (p & L & -> & -> & R & F); [|lia].
  change (unbe_acc 0 p) with (unbe p) in *. split; [|split; [auto|]].
  - pose proof (unbe_range p) as U. unfold zlen in U. rewrite L in U. split; [|lia].
    destruct p as [|b q]; [cbn in L; congruence|]. specialize (F b q eq_refl eq_refl).
    rewrite unbe_cons. unfold zlen. cbn [length] in L.
    replace (Z.of_nat n - 1) with (Z.of_nat (length q)) by lia.
    pose proof (unbe_range q). pose proof (bz_range b).
    assert (bz b <> 0) by (intros Z0; apply F; apply bz_inj; rewrite Z0; reflexivity).
    pose proof (pow256_pos (length q)). nia.
  - rewrite <- L. rewrite be_unbe. reflexivity.
Qed.
Lemma length_bytes_be k : forall acc l r, 0 <= acc -> (k <> O -> acc < 2 ^ 23) -> (k <= 4)%nat ->
  acc * 256 ^ Z.of_nat k + l mod 256 ^ Z.of_nat k < 2 ^ 31 -> (acc = 0 -> k <> O -> 256 ^ (Z.of_nat k - 1) <= l mod 256 ^ Z.of_nat k) ->
  length_bytes k acc (be k l ++ r) = Some (acc * 256 ^ Z.of_nat k + l mod 256 ^ Z.of_nat k, r).
Proof.
  induction k as [|k IH]; intros acc l r H0 HA HK HL HM.
  - cbn [length_bytes be app]. change (256 ^ Z.of_nat 0) with 1. rewrite Z.mod_1_r. do 2 f_equal. lia.
  - specialize (HA ltac:(lia)). cbn [length_bytes be app]. rewrite decide_False by lia. cbv zeta. rewrite bz_zb.
    assert (256 ^ Z.of_nat (S k) = 256 * 256 ^ Z.of_nat k) as P by apply pow256_S. rewrite P in *.
    pose proof (pow256_pos k) as PP. set (m := 256 ^ Z.of_nat k) in *.
    assert (l mod (256 * m) = (l / m) mod 256 * m + l mod m) as ML.
    { rewrite (Z.mul_comm 256 m). rewrite Z.rem_mul_r by lia. lia. }
    assert (0 <= l mod m < m) as MB by (apply Z.mod_pos_bound; lia).
    assert (0 <= (l / m) mod 256 < 256) as QB by (apply Z.mod_pos_bound; lia).
    rewrite decide_False.
    + rewrite IH.
      * rewrite ML. do 2 f_equal. unfold m. lia.
      * lia.
      * intros K0. destruct k as [|k].
        -- congruence.
        -- assert (256 <= m) by (unfold m; rewrite pow256_S; pose proof (pow256_pos k); lia). nia.
      * lia.
      * fold m. rewrite ML in HL. lia.
      * intros A NK. exfalso. assert (acc = 0) by lia. subst acc. specialize (HM eq_refl ltac:(lia)).
        replace (Z.of_nat (S k) - 1) with (Z.of_nat k) in HM by lia. fold m in HM. rewrite ML in HM. nia.
    + intros A. assert (acc = 0) by lia. subst acc. specialize (HM eq_refl ltac:(lia)).
      replace (Z.of_nat (S k) - 1) with (Z.of_nat k) in HM by lia. fold m in HM. rewrite ML in HM. nia.
Qed.
Lemma parse_length_exact s n r : parse_length s = Some (n, r) <-> 0 <= n < 2 ^ 31 /\ exists l, length_octets n l /\ s = l ++ r.
Proof.
  split.
  - destruct s as [|b s]; [discriminate|]. cbn [parse_length]. pose proof (bz_range b) as B. case_decide as D.
    + intros [= <- <-]. split; [lia|]. exists [b]. split; [|reflexivity].
      replace [b] with [zb (bz b)] by (rewrite zb_bz; reflexivity). constructor. lia.
    + cbv zeta. case_decide as D2; [discriminate|].
      destruct (length_bytes _ 0 s) as [[l r']|] eqn:E; [|discriminate]. case_decide as D3; [discriminate|]. intros [= <- <-].
      apply length_bytes_long in E as (R & R2 & ->); [|assumption]. split; [lia|].
      exists (b :: be (Z.to_nat (bz b - 128)) l). split; [|reflexivity].
      replace b with (zb (128 + Z.of_nat (Z.to_nat (bz b - 128)))) at 1.
      * constructor; [lia|assumption].
      * rewrite Z2Nat.id by lia. replace (128 + (bz b - 128)) with (bz b) by lia. apply zb_bz.
  - intros (R & l & X & ->). inversion X as [m L|m k L K]; subst; cbn [app parse_length].
    + rewrite bz_zb, Z.mod_small by lia. rewrite decide_True by lia. reflexivity.
    + assert (k <= 4)%nat as K4.
      { destruct (le_lt_dec k 4) as [|K4]; [assumption|]. exfalso.
        assert (256 ^ 4 <= 256 ^ (Z.of_nat k - 1)) by (apply Z.pow_le_mono_r; lia). lia. }
      rewrite bz_zb, Z.mod_small by lia. rewrite decide_False by lia. cbv zeta.
      replace (Z.to_nat (128 + Z.of_nat k - 128)) with k by lia.
      assert (k <> O) as K0 by (intros ->; change (256 ^ Z.of_nat 0) with 1 in K; lia).
      rewrite decide_False by assumption.
      rewrite length_bytes_be; rewrite ?Z.mod_small by lia; [|lia|lia|assumption|lia|intros; lia].
      rewrite decide_False by lia. do 2 f_equal. 
Qed.

Lemma der_field_exact tag s c r : der_field tag s = Some (c, r) <-> zlen c < 2 ^ 31 /\ exists e, element tag c e /\ s = e ++ r.
Proof.
  unfold element. split.
  - destruct s as [|b s]; [discriminate|]. cbn [der_field]. case_decide as D; [discriminate|]. subst b.
    destruct (parse_length s) as [[n s']|] eqn:E; [|discriminate]. case_decide as D; [discriminate|]. intros [= <- <-].
    apply parse_length_exact in E as (R & l & HL & ->).
    assert (zlen (take (Z.to_nat n) s') = n) as ZL by (unfold zlen in *; rewrite take_length; lia).
    rewrite ZL. split; [lia|]. exists (tag :: l ++ take (Z.to_nat n) s'). split; [eauto|].
    cbn [app]. rewrite <- app_assoc, take_drop. reflexivity.
  - intros (R & e & (l & HL & ->) & ->). cbn [app der_field]. rewrite decide_False by auto.
    rewrite (proj2 (parse_length_exact ((l ++ c) ++ r) (zlen c) (c ++ r))).
    + rewrite decide_False by (unfold zlen; rewrite app_length; lia). unfold zlen. rewrite Nat2Z.id.
      rewrite take_app, drop_app. reflexivity.
    + split; [unfold zlen in *; lia|]. exists l. split; [assumption|]. apply app_assoc_reverse.
Qed.
Lemma element_eq tag c e : zlen c < 2 ^ 64 -> element tag c e <-> e = der_element tag c.
Proof.
  intros H. unfold element, der_element. assert (0 <= zlen c) by (unfold zlen; lia). split.
  - intros (l & L & ->). apply der_length_octets in L as ->; [reflexivity|lia].
  - intros ->. eexists. split; [|reflexivity]. apply der_length_octets; [lia|reflexivity].
Qed.

(** *** Integers *)
Lemma int_length_spec f : forall z, - 2 ^ (8 * Z.of_nat f + 7) <= z < 2 ^ (8 * Z.of_nat f + 7) ->
  exists k, int_length f z = S k /\ - 2 ^ (8 * Z.of_nat k + 7) <= z < 2 ^ (8 * Z.of_nat k + 7) /\
    (k <> O -> ~ (- 2 ^ (8 * Z.of_nat k - 1) <= z < 2 ^ (8 * Z.of_nat k - 1))).
Proof.
  induction f as [|f IH]; intros z H; cbn [int_length].
  - exists O. split; [reflexivity|]. split; [assumption|]. congruence.
  - case_decide as D.
    + assert (2 ^ (8 * Z.of_nat (S f) + 7) = 256 * 2 ^ (8 * Z.of_nat f + 7)) as P.
      { replace (8 * Z.of_nat (S f) + 7) with (8 + (8 * Z.of_nat f + 7)) by lia. rewrite Z.pow_add_r by lia. reflexivity. }
      destruct (IH (z / 256)) as (k & -> & A & B); [rewrite P in H; lia|].
      exists (S k). split; [reflexivity|].
      assert (2 ^ (8 * Z.of_nat (S k) + 7) = 256 * 2 ^ (8 * Z.of_nat k + 7)) as P2.
      { replace (8 * Z.of_nat (S k) + 7) with (8 + (8 * Z.of_nat k + 7)) by lia. rewrite Z.pow_add_r by lia. reflexivity. }
      split; [rewrite P2; lia|]. intros _.
      replace (8 * Z.of_nat (S k) - 1) with (8 * Z.of_nat k + 7) by lia.
      destruct k as [|k]; [change (2 ^ (8 * Z.of_nat 0 + 7)) with 128; lia|].
      specialize (B ltac:(lia)).
      assert (2 ^ (8 * Z.of_nat (S k) + 7) = 256 * 2 ^ (8 * Z.of_nat (S k) - 1)) as P3.
      { replace (8 * Z.of_nat (S k) + 7) with (8 + (8 * Z.of_nat (S k) - 1)) by lia. rewrite Z.pow_add_r by lia. reflexivity. }
      rewrite P3. lia.
    + exists O. split; [reflexivity|]. change (2 ^ (8 * Z.of_nat 0 + 7)) with 128. split; [lia|congruence].
Qed.
Lemma int_contents_exists z : - 2 ^ 63 <= z < 2 ^ 63 -> int_contents z (be (int_length 7 z) z).
Proof. intros H. destruct (int_length_spec 7 z) as (k & -> & A & B); [exact H|]. exists k. auto. Qed.
Lemma int_contents_fun z c c' : int_contents z c -> int_contents z c' -> c = c'.
Proof.
  intros (k & -> & A & B) (k' & -> & A' & B'). enough (k = k') by congruence.
  destruct (Nat.lt_trichotomy k k') as [L|[L|L]]; [|assumption|]; exfalso.
  - apply B'; [lia|]. assert (2 ^ (8 * Z.of_nat k + 7) <= 2 ^ (8 * Z.of_nat k' - 1)) by (apply Z.pow_le_mono_r; lia). lia.
  - apply B; [lia|]. assert (2 ^ (8 * Z.of_nat k' + 7) <= 2 ^ (8 * Z.of_nat k - 1)) by (apply Z.pow_le_mono_r; lia). lia.
Qed.
Lemma to_i_unique n z u : 0 < n -> - 2 ^ (n - 1) <= z < 2 ^ (n - 1) -> u mod 2 ^ n = z mod 2 ^ n -> to_i n u = z.
Proof. intros N R E. rewrite <- (to_i_mod n u), E, to_i_mod by assumption. apply to_i_small; assumption. Qed.
Lemma der_int64_exact c z : der_int64 c = Some z <-> - 2 ^ 63 <= z < 2 ^ 63 /\ int_contents z c.
Proof.
  split.
  - unfold der_int64. destruct c as [|x r]; [discriminate|].
    destruct (nonminimal x r) eqn:M; [discriminate|]. case_decide as D; [discriminate|]. intros [= <-].
    set (c := x :: r) in *.
    assert (zlen c = Z.of_nat (length r) + 1) as ZL by (unfold zlen, c; cbn [length]; lia).
    pose proof (to_i_range (8 * zlen c) (unbe c) ltac:(lia)) as R.
    assert (2 ^ (8 * zlen c - 1) <= 2 ^ 63) by (apply Z.pow_le_mono_r; lia).
    split; [lia|]. exists (length r).
    assert (8 * Z.of_nat (length r) + 7 = 8 * zlen c - 1) as EX by lia. rewrite EX.
    pose proof (unbe_range c) as U.
    assert (2 ^ (8 * zlen c) = 256 ^ zlen c) as P by (symmetry; apply pow256_2).
    assert (2 ^ (8 * zlen c) = 2 * 2 ^ (8 * zlen c - 1)) as PH.
    { replace (8 * zlen c) with (1 + (8 * zlen c - 1)) at 1 by lia. rewrite Z.pow_add_r by lia. reflexivity. }
    assert (unbe c mod 2 ^ (8 * zlen c) = unbe c) as UM by (apply Z.mod_small; lia).
    split; [|split; [lia|]].
    + transitivity (be (length c) (unbe c)); [symmetry; apply be_unbe|]. apply be_cong.
      change (S (length r)) with (length c). fold (zlen c). rewrite <- P.
      unfold to_i. cbv zeta. rewrite UM. case_decide; [symmetry; exact UM|].
      rewrite <- UM at 1. rewrite <- (Z.mod_add (unbe c) (-1) (2 ^ (8 * zlen c))) by lia. f_equal.
    + intros NR. destruct r as [|y r]; [cbn in NR; congruence|]. clear NR.
      apply orb_false_iff in M as [M1 M2]. rewrite bool_decide_eq_false in M1, M2.
      pose proof (bz_range x). pose proof (bz_range y).
      assert (unbe c = (bz x * 256 + bz y) * 256 ^ zlen r + unbe r) as UC.
      { unfold c. rewrite unbe_cons, unbe_cons. unfold zlen. cbn [length].
        rewrite pow256_S. lia. }
      pose proof (unbe_range r) as UR.
      set (q := 256 ^ zlen r) in *. assert (0 < q) by (unfold q, zlen; apply pow256_pos).
      assert (zlen c = zlen r + 2) as ZC by (unfold zlen, c; cbn [length]; lia).
      assert (8 * Z.of_nat (length (y :: r)) - 1 = 7 + 8 * zlen r) as E2 by (unfold zlen; cbn [length]; lia).
      assert (2 ^ (7 + 8 * zlen r) = 128 * q) as E3.
      { rewrite Z.pow_add_r by (unfold zlen; lia). rewrite <- pow256_2. reflexivity. }
      rewrite E2, E3.
      assert (2 ^ (8 * zlen c - 1) = 32768 * q) as E4.
      { replace (8 * zlen c - 1) with (15 + 8 * zlen r) by lia. rewrite Z.pow_add_r by (unfold zlen; lia). rewrite <- pow256_2. reflexivity. }
      unfold to_i. cbv zeta. rewrite UM, PH, E4. case_decide as D2; rewrite UC in *; intros [I1 I2]; nia.
  - intros (R & k & -> & A & B).
    assert (k <= 7)%nat as K7.
    { destruct (le_lt_dec k 7) as [|K7]; [assumption|]. exfalso. apply B; [lia|].
      assert (2 ^ 63 <= 2 ^ (8 * Z.of_nat k - 1)) by (apply Z.pow_le_mono_r; lia). lia. }
    unfold der_int64. destruct (be (S k) z) as [|x r] eqn:E; [discriminate E|].
    assert (length (x :: r) = S k) as L by (rewrite <- E; apply length_be).
    assert (zlen (x :: r) = Z.of_nat k + 1) as ZL by (unfold zlen; lia).
    assert (unbe (x :: r) = z mod 256 ^ Z.of_nat (S k)) as U by (rewrite <- E; apply unbe_be).
    destruct (nonminimal x r) eqn:M.
    + exfalso. destruct r as [|y r]; [discriminate M|]. apply orb_true_iff in M. rewrite !bool_decide_eq_true in M.
      cbn [length] in L. injection L as L.
      assert (k <> O) as K0 by lia. apply B; [assumption|].
      rewrite !unbe_cons in U. unfold zlen in U. cbn [length] in U. rewrite pow256_S in U.
      pose proof (unbe_range r) as UR. unfold zlen in UR. pose proof (bz_range x). pose proof (bz_range y).
      set (q := 256 ^ Z.of_nat (length r)) in *. assert (0 < q) by (unfold q; apply pow256_pos).
      assert (256 ^ Z.of_nat (S k) = 65536 * q) as E1.
      { rewrite <- L. rewrite !pow256_S. fold q. lia. }
      assert (2 ^ (8 * Z.of_nat k - 1) = 128 * q) as E2.
      { replace (8 * Z.of_nat k - 1) with (7 + 8 * Z.of_nat (length r)) by lia. rewrite Z.pow_add_r by lia. rewrite <- pow256_2. reflexivity. }
      assert (2 ^ (8 * Z.of_nat k + 7) = 32768 * q) as E3.
      { replace (8 * Z.of_nat k + 7) with (15 + 8 * Z.of_nat (length r)) by lia. rewrite Z.pow_add_r by lia. rewrite <- pow256_2. reflexivity. }
      rewrite E1 in U. rewrite E3 in A. rewrite E2.
      destruct (Z.le_gt_cases 0 z) as [Z0|Z0].
      * rewrite Z.mod_small in U by lia. destruct M as [M|M]; nia.
      * rewrite <- (Z.mod_add z 1 (65536 * q)) in U by lia. rewrite Z.mod_small in U by lia. destruct M as [M|M]; nia.
    + rewrite decide_False by lia. f_equal. apply to_i_unique; [lia| |].
      * replace (8 * zlen (x :: r) - 1) with (8 * Z.of_nat k + 7) by lia. assumption.
      * rewrite U. rewrite ZL. replace (Z.of_nat k + 1) with (Z.of_nat (S k)) by lia. rewrite pow256_2. apply Z.mod_mod. lia.
Qed.

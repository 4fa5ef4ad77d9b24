(** The readers of base64, base32, hexadecimal and PEM text against [SpecCodec]. *)
From Verif Require Export SpecCodec JsonText Base32Facts PemFacts.
Local Open Scope Z_scope.

(** *** Digits *)
Lemma digit_in (al : bytes) (un : byte -> option Z) :
  forallb (fun n => match un (zb (Z.of_nat n)) with
    | None => negb (existsb (fun x => bool_decide (zb (Z.of_nat n) = x)) al)
    | Some v => bool_decide (0 <= v) && bool_decide (al !! Z.to_nat v = Some (zb (Z.of_nat n))) end) (seq 0 256) = true ->
  NoDup al -> forall c v, un c = Some v <-> digit al c v.
Proof.
  intros H ND c v. pose proof (all_bytes_ok (fun c => match un c with None => negb (existsb (fun x => bool_decide (c = x)) al)
    | Some v => bool_decide (0 <= v) && bool_decide (al !! Z.to_nat v = Some c) end) H c) as X. cbn beta in X. split.
  - intros E. rewrite E in X. apply andb_true_iff in X as [A B]. apply bool_decide_eq_true in A, B. split; assumption.
  - intros [A B]. destruct (un c) as [v'|].
    + apply andb_true_iff in X as [A' B']. apply bool_decide_eq_true in A', B'. f_equal.
      apply (Z2Nat.inj v' v A' A). eapply NoDup_lookup; eassumption.
    + exfalso. apply negb_true_iff in X. assert (existsb (fun x => bool_decide (c = x)) al = true) as Y; [|congruence].
      apply existsb_exists. exists c. split; [eapply elem_of_list_In, elem_of_list_lookup_2, B|]. apply bool_decide_eq_true. reflexivity.
Qed.
Lemma unb64_digit c v : unb64 c = Some v <-> digit b64_alphabet c v.
Proof. apply digit_in; [vm_compute; reflexivity|]. apply (bool_decide_unpack _). vm_compute. exact I. Qed.
Lemma unb32_digit c v : unb32 c = Some v <-> digit b32_alphabet c v.
Proof. apply digit_in; [vm_compute; reflexivity|]. apply (bool_decide_unpack _). vm_compute. exact I. Qed.
Lemma digit_range al c v : digit al c v -> 0 <= v < Z.of_nat (length al).
Proof. intros [A B]. apply lookup_lt_Some in B. lia. Qed.
Lemma unhex_hexval c v : unhexdigit c = Some v <-> hexval c v.
Proof.
  unfold unhexdigit. split.
  - repeat case_decide; intros [= <-]; [apply hv_digit; lia| |].
    + replace (bz c - 87) with (bz c - 97 + 10) by lia. apply hv_lower. lia.
    + replace (bz c - 55) with (bz c - 65 + 10) by lia. apply hv_upper. lia.
  - intros [b H|b H|b H]; repeat (first [rewrite decide_True by lia|rewrite decide_False by lia]); f_equal; lia.
Qed.

(** *** Numbers *)
Lemma radix_acc B vs : forall a, fold_left (fun a v => a * B + v) vs a = a * B ^ Z.of_nat (length vs) + radix B vs.
Proof.
  unfold radix. induction vs as [|v vs IH]; intros a; cbn [fold_left length]; [lia|].
  rewrite IH, (IH (0 * B + v)). rewrite Nat2Z.inj_succ, Z.pow_succ_r by lia. ring.
Qed.
Lemma radix_app B u v : radix B (u ++ v) = radix B u * B ^ Z.of_nat (length v) + radix B v.
Proof. unfold radix at 1. rewrite fold_left_app. rewrite radix_acc. reflexivity. Qed.
Lemma unbe_app a b : unbe (a ++ b) = unbe a * 256 ^ zlen b + unbe b.
Proof. unfold unbe at 1. rewrite unbe_acc_app. fold (unbe a). apply unbe_acc_linear. Qed.

Lemma packed_fun w vs b b' : packed w vs b -> packed w vs b' -> b = b'.
Proof.
  intros (k & e & K & L & E & V) (k' & e' & K' & L' & E' & V'). unfold zlen in *.
  assert (length b = length b') as Lb by lia. assert (k = k') as <- by lia.
  apply unbe_inj; [exact Lb|]. rewrite V in V'. nia.
Qed.
(** Whole groups first. *)
Lemma packed_app w u b vs c : 0 < w -> w * Z.of_nat (length u) = 8 * zlen b -> radix (2 ^ w) u = unbe b -> packed w vs c -> packed w (u ++ vs) (b ++ c).
Proof.
  intros Hw Lu Ru (k & e & K & L & E & V). exists k, e. unfold zlen in *. rewrite !app_length, !Nat2Z.inj_add.
  split; [exact K|]. split; [lia|]. split; [exact E|].
  rewrite radix_app, unbe_app, Ru, V. unfold zlen.
  assert ((2 ^ w) ^ Z.of_nat (length vs) = 256 ^ Z.of_nat (length c) * 2 ^ k) as ->; [|ring].
  change 256 with (2 ^ 8). rewrite <- !Z.pow_mul_r by lia. rewrite <- Z.pow_add_r by lia. f_equal. lia.
Qed.
Lemma packed_rest w k e u b : 0 <= k < 8 -> w * Z.of_nat (length u) = 8 * zlen b + k -> 0 <= e < 2 ^ k -> radix (2 ^ w) u = unbe b * 2 ^ k + e -> packed w u b.
Proof. intros K L E V. exists k, e. auto. Qed.

Lemma split_unique M q r q' r' : 0 <= r < M -> 0 <= r' < M -> q * M + r = q' * M + r' -> q = q' /\ r = r'.
Proof. intros A B E. apply (Z.div_mod_unique M q q' r r'); [left; exact A|left; exact B|lia]. Qed.

(** *** Base64 *)
Lemma four_step {A} (P : list A -> Prop) : P [] -> (forall x, P [x]) -> (forall x y, P [x; y]) -> (forall x y z, P [x; y; z]) ->
  (forall x y z t l, P l -> P (x :: y :: z :: t :: l)) -> forall l, P l.
Proof.
  intros H0 H1 H2 H3 H4. fix IH 1. intros [|x [|y [|z [|t l]]]]; [exact H0|exact (H1 x)|exact (H2 x y)|exact (H3 x y z)|exact (H4 x y z t l (IH l))].
Qed.
Lemma radix4 a b c d : radix (2 ^ 6) [a; b; c; d] = ((a * 64 + b) * 64 + c) * 64 + d.
Proof. cbn [radix fold_left]. reflexivity. Qed.
Lemma groups_sound s : forall b, b64_groups s = Some b ->
  exists ds vs n, s = ds ++ replicate n x3d /\ Forall2 (digit b64_alphabet) ds vs /\ (n <= 2)%nat /\ ((length ds + n) mod 4 = 0)%nat /\ packed 6 vs b.
Proof.
  induction s as [|x|x y|x y z|x y z t s IH] using four_step; intros b; cbn [b64_groups]; try discriminate.
  - intros [= <-]. exists [], [], 0%nat. split; [reflexivity|]. split; [constructor|]. split; [lia|]. split; [reflexivity|].
    apply (packed_rest 6 0 0); [lia|reflexivity|lia|reflexivity].
  - destruct (unb64 x) as [a|] eqn:Ex; [|discriminate]. destruct (unb64 y) as [c|] eqn:Ey; [|discriminate].
    apply unb64_digit in Ex, Ey. pose proof (digit_range _ _ _ Ex) as Rx. pose proof (digit_range _ _ _ Ey) as Ry. cbn [length] in Rx, Ry.
    change (Z.of_nat (length b64_alphabet)) with 64 in *.
    destruct (unb64 z) as [d|] eqn:Ez; [destruct (unb64 t) as [e|] eqn:Et|].
    + apply unb64_digit in Ez, Et. pose proof (digit_range _ _ _ Ez) as Rz. pose proof (digit_range _ _ _ Et) as Rt. change (Z.of_nat (length b64_alphabet)) with 64 in *.
      destruct (b64_groups s) as [l|] eqn:E; [|discriminate]. intros [= <-]. destruct (IH _ eq_refl) as (ds & vs & n & -> & F & N & M & P).
      exists (x :: y :: z :: t :: ds), (a :: c :: d :: e :: vs), n. split; [reflexivity|]. split; [repeat (apply List.Forall2_cons; [assumption|]); first [assumption|constructor]|]. split; [exact N|].
      split; [cbn [length]; replace (S (S (S (S (length ds)))) + n)%nat with (length ds + n + 1 * 4)%nat by lia; rewrite Nat.mod_add by lia; exact M|].
      set (v := ((a * 64 + c) * 64 + d) * 64 + e) in *.
      apply (packed_app 6 [a; c; d; e] [zb (v / 65536); zb (v / 256 mod 256); zb (v mod 256)] vs l); [lia|reflexivity| |exact P].
      rewrite radix4. fold v. rewrite !unbe_cons, !bz_zb. change (unbe []) with 0. unfold zlen. cbn [length]. assert (0 <= v < 16777216) by (unfold v; lia). clearbody v. change (256 ^ Z.of_nat 2) with 65536. change (256 ^ Z.of_nat 1) with 256. change (256 ^ Z.of_nat 0) with 1. lia.
    + apply unb64_digit in Ez. pose proof (digit_range _ _ _ Ez) as Rz. change (Z.of_nat (length b64_alphabet)) with 64 in *.
      case_decide as D; [|discriminate]. destruct D as [-> ->]. intros [= <-].
      exists [x; y; z], [a; c; d], 1%nat. split; [reflexivity|]. split; [repeat (apply List.Forall2_cons; [assumption|]); first [assumption|constructor]|]. split; [lia|]. split; [reflexivity|].
      apply (packed_rest 6 2 (d mod 4)); [lia|reflexivity|change (2 ^ 2) with 4; lia|].
      unfold radix. cbn [fold_left]. rewrite !unbe_cons, !bz_zb. change (unbe []) with 0. unfold zlen. cbn [length]. change (256 ^ Z.of_nat 1) with 256. change (256 ^ Z.of_nat 0) with 1. change (2 ^ 6) with 64. change (2 ^ 2) with 4. lia.
    + case_decide as D; [|discriminate]. destruct D as (-> & -> & ->). intros [= <-].
      exists [x; y], [a; c], 2%nat. split; [reflexivity|]. split; [repeat (apply List.Forall2_cons; [assumption|]); first [assumption|constructor]|]. split; [lia|]. split; [reflexivity|].
      apply (packed_rest 6 4 (c mod 16)); [lia|reflexivity|change (2 ^ 4) with 16; lia|].
      unfold radix. cbn [fold_left]. rewrite !unbe_cons, !bz_zb. change (unbe []) with 0. unfold zlen. cbn [length]. change (256 ^ Z.of_nat 0) with 1. change (2 ^ 6) with 64. change (2 ^ 4) with 16. lia.
Qed.
Lemma groups_total ds : forall vs n, Forall2 (digit b64_alphabet) ds vs -> (n <= 2)%nat -> ((length ds + n) mod 4 = 0)%nat ->
  exists b, b64_groups (ds ++ replicate n x3d) = Some b.
Proof.
  induction ds as [|x|x y|x y z|x y z t s IH] using four_step; intros vs n F N M.
  - assert (n = 0)%nat as -> by (cbn [length] in M; destruct n as [|[|[|n]]]; try lia; discriminate M). eexists. reflexivity.
  - cbn [length] in M. destruct n as [|[|[|n]]]; try lia; discriminate M.
  - assert (n = 2)%nat as -> by (cbn [length] in M; destruct n as [|[|[|n]]]; try lia; discriminate M). repeat match goal with H : Forall2 _ (_ :: _) _ |- _ => inversion H; subst; clear H end.
    cbn [app replicate b64_groups]. repeat match goal with H : digit _ _ _ |- _ => apply unb64_digit in H; rewrite H end. rewrite unb64_pad, decide_True by auto. eauto.
  - assert (n = 1)%nat as -> by (cbn [length] in M; destruct n as [|[|[|n]]]; try lia; discriminate M). repeat match goal with H : Forall2 _ (_ :: _) _ |- _ => inversion H; subst; clear H end.
    cbn [app replicate b64_groups]. repeat match goal with H : digit _ _ _ |- _ => apply unb64_digit in H; rewrite H end. rewrite unb64_pad, decide_True by auto. eauto.
  - repeat match goal with H : Forall2 _ (_ :: _) _ |- _ => inversion H; subst; clear H end.
    edestruct (IH _ n ltac:(eassumption) N) as (b & E).
    { cbn [length] in M. replace (S (S (S (S (length s)))) + n)%nat with (length s + n + 1 * 4)%nat in M by lia. rewrite Nat.mod_add in M by lia. exact M. }
    cbn [app b64_groups]. repeat match goal with H : digit _ _ _ |- _ => apply unb64_digit in H; rewrite H end. rewrite E. eauto.
Qed.
Lemma b64_exact s b : b64_decode s = Some b <-> base64_text s b.
Proof.
  unfold b64_decode, base64_text. fold (no_breaks s). split; [apply groups_sound|].
  intros (ds & vs & n & E & F & N & M & P). destruct (groups_total ds vs n F N M) as (b' & G). rewrite E, G. f_equal.
  destruct (groups_sound _ _ G) as (ds' & vs' & n' & E' & F' & N' & M' & P').
  assert (ds = ds' /\ n = n') as [-> ->].
  { assert (forall l (v : list Z), Forall2 (digit b64_alphabet) l v -> x3d ∉ l) as NI.
    { intros l v X I. apply elem_of_list_lookup in I as [i I]. destruct (Forall2_lookup_l _ _ _ _ _ X I) as (y & _ & Y). apply unb64_digit in Y. discriminate Y. }
    pose proof (NI _ _ F) as N1. pose proof (NI _ _ F') as N2. clear - E' N1 N2. revert ds' E' N2. induction ds as [|c ds IH]; intros [|c' ds'] E' N2; cbn [app] in E'.
    - split; [reflexivity|]. apply (f_equal length) in E'. rewrite !replicate_length in E'. exact E'.
    - destruct n; [discriminate E'|]. injection E' as <- _. exfalso. apply N2. left.
    - destruct n'; [discriminate E'|]. injection E' as -> _. exfalso. apply N1. left.
    - injection E' as <- E'. destruct (IH ltac:(set_solver) ds' E' ltac:(set_solver)) as [-> ->]. auto. }
  assert (vs = vs') as ->.
  { clear - F F'. revert vs' F'. induction F as [|c v ds vs D F IH]; intros vs' F'; inversion F' as [|? v' ? ? D' G']; subst; [reflexivity|].
    apply unb64_digit in D, D'. f_equal; [congruence|]. apply IH. assumption. }
  eapply packed_fun; eassumption.
Qed.

(** *** Hexadecimal *)
Lemma hex_exact s : forall b, hex_decode s = Some b <-> hex_text s b.
Proof.
  induction s as [|x|x y s IH] using two_step; intros b; split.
  - intros [= <-]. exists []. auto.
  - intros (vs & F & L & V). destruct b; [reflexivity|discriminate L].
  - discriminate.
  - intros (vs & F & L & V). cbn [length] in L. lia.
  - cbn [hex_decode]. destruct (unhexdigit x) as [u|] eqn:U; [|discriminate]. destruct (unhexdigit y) as [v|] eqn:V; [|discriminate].
    destruct (hex_decode s) as [r|] eqn:E; [|discriminate]. intros [= <-]. apply unhex_hexval in U, V. destruct (proj1 (IH r) eq_refl) as (vs & F & L & R).
    exists (u :: v :: vs). split; [repeat (apply List.Forall2_cons; [assumption|]); first [assumption|constructor]|]. split; [cbn [length]; lia|].
    assert (0 <= u < 16 /\ 0 <= v < 16) as [Ru Rv] by (destruct U, V; lia).
    change (u :: v :: vs) with ([u; v] ++ vs). rewrite radix_app, unbe_cons, bz_zb, R. rewrite Z.mod_small by lia.
    apply Forall2_length in F. unfold zlen. change 256 with (16 ^ 2). rewrite <- Z.pow_mul_r by lia. replace (2 * Z.of_nat (length r)) with (Z.of_nat (length vs)) by lia.
    unfold radix. cbn [fold_left]. ring.
  - intros (vs & F & L & V). inversion F as [|? u ? vs1 U F1]; subst. inversion F1 as [|? v ? vs2 W F2]; subst.
    destruct b as [|c b]; [discriminate L|]. cbn [length] in L.
    assert (0 <= u < 16 /\ 0 <= v < 16) as [Ru Rv] by (destruct U, W; lia).
    change (u :: v :: vs2) with ([u; v] ++ vs2) in V. rewrite radix_app, unbe_cons in V.
    pose proof (Forall2_length _ _ _ F2) as L2. unfold zlen in V. change 256 with (16 ^ 2) in V. rewrite <- Z.pow_mul_r in V by lia.
    replace (2 * Z.of_nat (length b)) with (Z.of_nat (length vs2)) in V by lia.
    assert (0 <= radix 16 vs2 < 16 ^ Z.of_nat (length vs2)) as RR.
    { clear - F2. induction F2 as [|c v l vs H F IH]; [cbn; lia|]. change (v :: vs) with ([v] ++ vs). rewrite radix_app, app_length, Nat2Z.inj_add, Z.pow_add_r by lia. assert (0 <= v < 16) by (destruct H; lia). unfold radix at 1 3. cbn [fold_left length]. nia. }
    pose proof (unbe_range b) as RB. unfold zlen in RB. change 256 with (16 ^ 2) in RB. rewrite <- Z.pow_mul_r in RB by lia. replace (2 * Z.of_nat (length b)) with (Z.of_nat (length vs2)) in RB by lia.
    unfold radix at 1 in V. cbn [fold_left] in V. set (M := 16 ^ Z.of_nat (length vs2)) in *.
    assert (bz c = (0 * 16 + u) * 16 + v /\ radix 16 vs2 = unbe b) as [Ec Er].
    { destruct (split_unique M _ _ _ _ RR RB V) as [X Y]. split; [symmetry; exact X|exact Y]. }
    cbn [hex_decode]. apply unhex_hexval in U, W. rewrite U, W. assert (hex_decode s = Some b) as ->.
    { apply IH. exists vs2. split; [assumption|]. split; [lia|exact Er]. }
    f_equal. f_equal. apply zb_eq. rewrite Ec. rewrite Z.mod_small by lia. lia.
Qed.

(** *** Base32 *)
Lemma b32_eq c : digit b32_alphabet x3d c -> False.
Proof. intros H. apply unb32_digit in H. discriminate H. Qed.
Lemma quantum_exact src : forall j buf buf' rest fin, (j <= 8)%nat -> b32_quantum j buf src = Some (buf', rest, fin) <->
  exists ds vs, Forall2 (digit b32_alphabet) ds vs /\ buf' = buf ++ vs /\
    (fin = false /\ src = ds ++ rest /\ (j + length ds = 8)%nat \/
     fin = true /\ src = ds ++ x3d :: rest /\ (2 <= j + length ds < 8 /\ length rest < 8 /\ 7 <= length rest + (j + length ds))%nat /\
       Forall (eq x3d) (take (7 - (j + length ds)) rest) /\ ~ (j + length ds = 1 \/ j + length ds = 3 \/ j + length ds = 6)%nat).
Proof.
  induction src as [|c src IH]; intros j buf buf' rest fin Hj; cbn [b32_quantum]; (destruct (decide (j = 8%nat)) as [->|Nj]; [split|]).
  - intros [= <- <- <-]. exists [], []. rewrite app_nil_r. split; [constructor|]. split; [reflexivity|]. left. auto.
  - intros (ds & vs & F & -> & [(-> & E & L)|(-> & E & L & _)]); [|lia]. assert (ds = []) as -> by (destruct ds; [reflexivity|cbn [length] in L; lia]). inversion F; subst. cbn [app] in E. rewrite app_nil_r, <- E. reflexivity.
  - split; [discriminate|]. intros (ds & vs & F & -> & [(-> & E & L)|(-> & E & _)]); [|destruct ds; discriminate E]. destruct ds; [cbn [length] in L; lia|discriminate E].
  - intros [= <- <- <-]. exists [], []. rewrite app_nil_r. split; [constructor|]. split; [reflexivity|]. left. auto.
  - intros (ds & vs & F & -> & [(-> & E & L)|(-> & E & L & _)]); [|lia]. assert (ds = []) as -> by (destruct ds; [reflexivity|cbn [length] in L; lia]). inversion F; subst. cbn [app] in E. rewrite app_nil_r, <- E. reflexivity.
  - destruct (decide (c = x3d)) as [->|Nc].
    + split.
      * destruct (decide _) as [(_ & H2 & H3)|Nc]; [|discriminate].
        destruct (decide _) as [|H4]; [discriminate|]. destruct (decide (Forall _ _)) as [Fo|]; [|discriminate]. destruct (decide _) as [|H5]; [discriminate|]. intros [= <- <- <-].
        exists [], []. rewrite app_nil_r. cbn [length]. rewrite !Nat.add_0_r. split; [constructor|]. split; [reflexivity|]. right. split; [reflexivity|]. split; [reflexivity|]. split; [lia|]. auto.
      * intros (ds & vs & F & -> & X). destruct ds as [|c ds].
        -- inversion F; subst. cbn [app length] in X. rewrite Nat.add_0_r in X. destruct X as [(_ & _ & L)|(-> & E & L & Fo & N)]; [lia|]. injection E as <-.
           rewrite app_nil_r. rewrite decide_True by (split; [reflexivity|lia]). rewrite decide_False by lia. rewrite decide_True by assumption. rewrite decide_False by assumption. reflexivity.
        -- exfalso. inversion F as [|? v ? ? D]; subst. assert (c = x3d) as -> by (destruct X as [(_ & E & _)|(_ & E & _)]; injection E; congruence). eapply b32_eq, D.
    + rewrite decide_False by tauto. destruct (unb32 c) as [v|] eqn:U.
      * rewrite IH by lia. apply unb32_digit in U. split.
        -- intros (ds & vs & F & -> & X). exists (c :: ds), (v :: vs). split; [constructor; assumption|]. split; [rewrite <- app_assoc; reflexivity|].
           cbn [length]. replace (j + S (length ds))%nat with (S j + length ds)%nat by lia. destruct X as [(-> & -> & L)|(-> & -> & X)]; [left|right]; auto.
        -- intros (ds & vs & F & -> & X). destruct ds as [|c' ds].
           { exfalso. cbn [app length] in X. destruct X as [(_ & _ & L)|(_ & E & _)]; [lia|injection E; congruence]. }
           inversion F as [|? v' ? vs' D F']; subst. assert (c' = c) as -> by (destruct X as [(_ & E & _)|(_ & E & _)]; injection E; congruence).
           assert (v' = v) as -> by (apply unb32_digit in D, U; congruence). exists ds, vs'. split; [assumption|]. split; [rewrite <- app_assoc; reflexivity|].
           cbn [length] in X. replace (j + S (length ds))%nat with (S j + length ds)%nat in X by lia.
           destruct X as [(-> & E & L)|(-> & E & X)]; injection E as ->; [left|right]; auto.
      * split; [discriminate|]. intros (ds & vs & F & -> & X). exfalso. destruct ds as [|c' ds].
        -- cbn [app length] in X. destruct X as [(_ & _ & L)|(_ & E & _)]; [lia|injection E; congruence].
        -- inversion F as [|? v' ? vs' D F']; subst. assert (c' = c) as -> by (destruct X as [(_ & E & _)|(_ & E & _)]; injection E; congruence). apply unb32_digit in D. congruence.
Qed.
Lemma digits_range al ds vs : Forall2 (digit al) ds vs -> Forall (fun v => 0 <= v < Z.of_nat (length al)) vs.
Proof. induction 1; constructor; [eapply digit_range|]; eassumption. Qed.
Ltac explode_list vs := repeat (let x := fresh "v" in destruct vs as [|x vs]; cbn [length] in *; try lia).
Lemma pack_full vs : Forall (fun v => 0 <= v < 32) vs -> length vs = 8%nat -> length (b32_pack vs) = 5%nat /\ radix (2 ^ 5) vs = unbe (b32_pack vs).
Proof.
  intros F L. explode_list vs. clear L. repeat match goal with H : Forall _ (_ :: _) |- _ => inversion H; subst; clear H end.
  unfold b32_pack. cbn [length nth]. change (5 * 8 / 8)%nat with 5%nat. cbn [take]. split; [reflexivity|].
  rewrite !unbe_cons, !bz_zb. change (unbe []) with 0. unfold zlen, radix. cbn [length fold_left].
  change (256 ^ Z.of_nat 4) with 4294967296. change (256 ^ Z.of_nat 3) with 16777216. change (256 ^ Z.of_nat 2) with 65536. change (256 ^ Z.of_nat 1) with 256. change (256 ^ Z.of_nat 0) with 1. change (2 ^ 5) with 32. lia.
Qed.
Lemma pack_last vs : Forall (fun v => 0 <= v < 32) vs -> (length vs = 2 \/ length vs = 4 \/ length vs = 5 \/ length vs = 7)%nat -> packed 5 vs (b32_pack vs).
Proof.
  intros F L. unfold b32_pack. destruct L as [L|[L|[L|L]]]; explode_list vs; clear L; repeat match goal with H : Forall _ (_ :: _) |- _ => inversion H; subst; clear H end; cbn [length nth].
  - change (5 * 2 / 8)%nat with 1%nat. cbn [take]. apply (packed_rest 5 2 (v0 mod 4)); [lia|reflexivity|change (2 ^ 2) with 4; lia|].
    rewrite !unbe_cons, !bz_zb. change (unbe []) with 0. unfold zlen, radix. cbn [length fold_left]. change (256 ^ Z.of_nat 0) with 1. change (2 ^ 5) with 32. change (2 ^ 2) with 4. lia.
  - change (5 * 4 / 8)%nat with 2%nat. cbn [take]. apply (packed_rest 5 4 (v2 mod 16)); [lia|reflexivity|change (2 ^ 4) with 16; lia|].
    rewrite !unbe_cons, !bz_zb. change (unbe []) with 0. unfold zlen, radix. cbn [length fold_left]. change (256 ^ Z.of_nat 1) with 256. change (256 ^ Z.of_nat 0) with 1. change (2 ^ 5) with 32. change (2 ^ 4) with 16. lia.
  - change (5 * 5 / 8)%nat with 3%nat. cbn [take]. apply (packed_rest 5 1 (v3 mod 2)); [lia|reflexivity|change (2 ^ 1) with 2; lia|].
    rewrite !unbe_cons, !bz_zb. change (unbe []) with 0. unfold zlen, radix. cbn [length fold_left]. change (256 ^ Z.of_nat 2) with 65536. change (256 ^ Z.of_nat 1) with 256. change (256 ^ Z.of_nat 0) with 1. change (2 ^ 5) with 32. change (2 ^ 1) with 2. lia.
  - change (5 * 7 / 8)%nat with 4%nat. cbn [take]. apply (packed_rest 5 3 (v5 mod 8)); [lia|reflexivity|change (2 ^ 3) with 8; lia|].
    rewrite !unbe_cons, !bz_zb. change (unbe []) with 0. unfold zlen, radix. cbn [length fold_left]. change (256 ^ Z.of_nat 3) with 16777216. change (256 ^ Z.of_nat 2) with 65536. change (256 ^ Z.of_nat 1) with 256. change (256 ^ Z.of_nat 0) with 1. change (2 ^ 5) with 32. change (2 ^ 3) with 8. lia.
Qed.
Definition b32_shape (ds : bytes) (n : nat) (junk : bytes) : Prop :=
  (n = 0 /\ junk = [] /\ length ds mod 8 = 0 \/ length ds mod 8 + n = 8 /\ (n = 1 \/ n = 3 \/ n = 4 \/ n = 6) /\ n + length junk <= 8)%nat.
Lemma all_eq_replicate l : Forall (eq x3d) l -> l = replicate (length l) x3d.
Proof. induction 1 as [|c l <- F IH]; [reflexivity|]. cbn [length replicate]. f_equal. exact IH. Qed.
Lemma b32_loop_sound fuel : forall src k, b32_loop fuel src = Some k ->
  exists ds vs n junk, src = ds ++ replicate n x3d ++ junk /\ Forall2 (digit b32_alphabet) ds vs /\ packed 5 vs k /\ b32_shape ds n junk.
Proof.
  induction fuel as [|fuel IH]; intros src k; (destruct src as [|c src]; cbn [b32_loop];
    [intros [= <-]; exists [], [], 0%nat, []; split; [reflexivity|]; split; [constructor|]; split; [apply (packed_rest 5 0 0); [lia|reflexivity|lia|reflexivity]|left; auto]|]); try discriminate.
  destruct (b32_quantum 0 [] (c :: src)) as [[[buf rest] fin]|] eqn:Q; [|discriminate].
  apply quantum_exact in Q as (ds & vs & F & -> & X); [|lia]. cbn [app Nat.add] in *. pose proof (digits_range _ _ _ F) as R. change (Z.of_nat (length b32_alphabet)) with 32 in R. pose proof (Forall2_length _ _ _ F) as L.
  destruct X as [(-> & -> & L8)|(-> & -> & (B1 & B2 & B3) & Fo & N)].
  - destruct (b32_loop fuel rest) as [l|] eqn:E; [|discriminate]. intros [= <-]. destruct (IH _ _ E) as (ds' & vs' & n & junk & -> & F' & P & S).
    exists (ds ++ ds'), (vs ++ vs'), n, junk. split; [rewrite <- app_assoc; reflexivity|]. split; [apply Forall2_app; assumption|].
    destruct (pack_full vs R ltac:(lia)) as [PL PV]. split.
    + apply packed_app; [lia|unfold zlen; lia|exact PV|exact P].
    + unfold b32_shape in *. rewrite app_length, L8. replace (8 + length ds')%nat with (length ds' + 1 * 8)%nat by lia. rewrite Nat.mod_add by lia. exact S.
  - intros [= <-]. exists ds, vs, (8 - length ds)%nat, (drop (7 - length ds) rest). split.
    { f_equal. replace (8 - length ds)%nat with (S (7 - length ds)) by lia. cbn [replicate app]. f_equal. rewrite <- (take_drop (7 - length ds) rest) at 1. f_equal.
      rewrite (all_eq_replicate _ Fo). rewrite take_length. f_equal. lia. }
    split; [exact F|]. split; [apply pack_last; [exact R|lia]|]. right. rewrite Nat.mod_small by lia. rewrite drop_length. lia.
Qed.
Lemma b32_loop_total fuel : forall ds vs n junk, (length (ds ++ replicate n x3d ++ junk) <= fuel)%nat -> Forall2 (digit b32_alphabet) ds vs -> b32_shape ds n junk ->
  exists k, b32_loop fuel (ds ++ replicate n x3d ++ junk) = Some k /\ packed 5 vs k.
Proof.
  induction fuel as [|fuel IH]; intros ds vs n junk Lf F S.
  - destruct ds as [|c ds]; [|cbn [app length] in Lf; lia]. inversion F; subst. destruct S as [(-> & -> & _)|(E & C & _)].
    + exists []. split; [reflexivity|]. apply (packed_rest 5 0 0); [lia|reflexivity|lia|reflexivity].
    + cbn [length] in E. change (0 mod 8)%nat with 0%nat in E. lia.
  - pose proof (digits_range _ _ _ F) as R. change (Z.of_nat (length b32_alphabet)) with 32 in R. pose proof (Forall2_length _ _ _ F) as L.
    destruct (decide (ds = [])) as [->|Nd].
    + inversion F; subst. destruct S as [(-> & -> & _)|(E & C & _)]; [|cbn [length] in E; change (0 mod 8)%nat with 0%nat in E; lia].
      exists []. split; [reflexivity|]. apply (packed_rest 5 0 0); [lia|reflexivity|lia|reflexivity].
    + destruct (ds ++ replicate n x3d ++ junk) as [|c0 s0] eqn:Es; [destruct ds; [congruence|discriminate Es]|]. cbn [b32_loop]. rewrite <- Es in *. clear c0 s0 Es.
      destruct (decide (8 <= length ds)%nat) as [G|G].
      * assert (b32_quantum 0 [] (ds ++ replicate n x3d ++ junk) = Some (take 8 vs, drop 8 ds ++ replicate n x3d ++ junk, false)) as ->.
        { apply quantum_exact; [lia|]. exists (take 8 ds), (take 8 vs). split; [apply Forall2_take; exact F|]. split; [reflexivity|]. left. split; [reflexivity|].
          split; [rewrite (app_assoc (take 8 ds)), take_drop; reflexivity|]. rewrite take_length. lia. }
        destruct (IH (drop 8 ds) (drop 8 vs) n junk) as (l & -> & P).
        { rewrite app_length in *. rewrite drop_length. lia. }
        { apply Forall2_drop. exact F. }
        { unfold b32_shape in *. rewrite drop_length. replace (length ds) with (length ds - 8 + 1 * 8)%nat in S by lia. rewrite Nat.mod_add in S by lia. exact S. }
        eexists. split; [reflexivity|]. destruct (pack_full (take 8 vs)) as [PL PV]; [apply Forall_take; exact R|rewrite take_length; lia|].
        rewrite <- (take_drop 8 vs) at 1. apply packed_app; [lia|unfold zlen; rewrite take_length; lia|exact PV|exact P].
      * destruct S as [(-> & -> & E)|(E & C & J)]; [rewrite Nat.mod_small in E by lia; destruct ds; [congruence|cbn [length] in E; lia]|]. rewrite Nat.mod_small in E by lia.
        assert (b32_quantum 0 [] (ds ++ replicate n x3d ++ junk) = Some (vs, replicate (n - 1) x3d ++ junk, true)) as ->.
        { apply quantum_exact; [lia|]. exists ds, vs. split; [exact F|]. split; [reflexivity|]. right. split; [reflexivity|].
          split; [f_equal; destruct n; [lia|]; cbn [replicate app]; rewrite Nat.sub_succ, Nat.sub_0_r; reflexivity|].
          rewrite app_length, replicate_length. cbn [Nat.add]. split; [lia|]. split; [|lia].
          rewrite take_app_alt by (rewrite replicate_length; lia). apply Forall_replicate. reflexivity. }
        eexists. split; [reflexivity|]. apply pack_last; [exact R|lia].
Qed.
Lemma b32_breaks s : filter (fun c => c <> x0d /\ c <> x0a) s = no_breaks s.
Proof.
  unfold no_breaks. induction s as [|c s IH]; [reflexivity|]. rewrite filter_cons. cbn [List.filter]. rewrite IH. case_decide as D.
  - rewrite bool_decide_eq_false_2 by (intros [-> | ->]; tauto). reflexivity.
  - rewrite bool_decide_eq_true_2; [reflexivity|]. destruct (decide (c = x0a)); [auto|]. right. destruct (decide (c = x0d)); [assumption|]. exfalso. auto.
Qed.
Lemma b32_exact s b : b32_decode s = Some b <-> base32_text s b.
Proof.
  unfold b32_decode, base32_text. rewrite b32_breaks. split; [apply b32_loop_sound|].
  intros (ds & vs & n & junk & E & F & P & S). rewrite E. destruct (b32_loop_total (length (ds ++ replicate n x3d ++ junk)) ds vs n junk (Nat.le_refl _) F S) as (k & -> & P').
  f_equal. eapply packed_fun; eassumption.
Qed.

(** *** PEM *)
Lemma trim_right_split s : exists t, s = trim_right s ++ t /\ Forall (fun b => b = x20 \/ b = x09) t.
Proof.
  induction s as [|b s (t & E & F)]; [exists []; auto|]. cbn [trim_right]. destruct (trim_right s) as [|c u] eqn:T.
  - case_decide as D.
    + exists (b :: s). split; [reflexivity|]. constructor; [exact D|]. rewrite E. exact F.
    + exists t. split; [rewrite E at 1; reflexivity|exact F].
  - exists t. split; [rewrite E at 1; reflexivity|exact F].
Qed.
Lemma drop_cr_split s : exists cr, s = drop_cr s ++ cr /\ (cr = [] \/ cr = [x0d]).
Proof.
  unfold drop_cr. case_decide as D; [|exists []; rewrite app_nil_r; auto].
  apply last_Some in D as [u ->]. exists [x0d]. rewrite app_length. cbn [length]. replace (length u + 1 - 1)%nat with (length u) by lia. rewrite take_app. auto.
Qed.
(** A line, the blanks after it and its end. *)
Lemma get_line_split s l r : get_line s = (l, r) ->
  (exists w, s = l ++ w ++ x0a :: r /\ blank_end w /\ x0a ∉ l ++ w) \/ (r = [] /\ exists w, s = l ++ w /\ Forall (fun b => b = x20 \/ b = x09) w).
Proof.
  unfold get_line. destruct (cut [x0a] s) as [[u v]|] eqn:E; intros [= <- <-].
  - left. assert (x0a ∉ u) as N.
    { revert u v E. induction s as [|b s IH]; intros u v; cbn [cut]; destruct (has_prefix [x0a] _) eqn:P; try (intros [= <- <-]; set_solver); try discriminate.
      destruct (cut [x0a] s) as [[u' v']|]; [|discriminate]. intros [= <- <-]. specialize (IH _ _ eq_refl). apply not_elem_of_cons. split; [|exact IH].
      intros <-. rewrite (proj2 (has_prefix_iff [x0a] (x0a :: s)) (ex_intro _ s eq_refl)) in P. discriminate P. }
    apply cut_inv in E. destruct (drop_cr_split u) as (cr & E1 & C). destruct (trim_right_split (drop_cr u)) as (t & E2 & F).
    assert (u = trim_right (drop_cr u) ++ t ++ cr) as Eu by (rewrite app_assoc, <- E2; exact E1).
    exists (t ++ cr). split; [|split].
    + rewrite E. rewrite Eu at 1. rewrite <- !app_assoc. reflexivity.
    + exists t, cr. auto.
    + rewrite <- Eu. exact N.
  - right. split; [reflexivity|]. destruct (trim_right_split s) as (t & E2 & F). exists t. auto.
Qed.
Lemma headers_sound f : forall any s any' r, pem_headers f any s = Some (any', r) -> exists hs, s = concat hs ++ r /\ Forall header_line hs /\ r <> [] /\ (any' = any || negb (bool_decide (hs = []))).
Proof.
  induction f as [|f IH]; intros any s any' r; cbn [pem_headers]; [discriminate|]. case_decide as D; [discriminate|].
  destruct (get_line s) as [l next] eqn:G. destruct (cut [x3a] l) as [[k v]|] eqn:E.
  - intros H. destruct (IH _ _ _ _ H) as (hs & E1 & F & Nr & A). apply get_line_split in G as [(w & Es & B & N)|(-> & _)].
    + exists ((l ++ w ++ [x0a]) :: hs). split; [cbn [concat]; rewrite Es, E1, <- !app_assoc; reflexivity|]. split; [|split; [exact Nr|]].
      * constructor; [|exact F]. exists (l ++ w). split; [rewrite app_assoc; reflexivity|]. split; [exact N|]. apply cut_inv in E. rewrite E. set_solver.
      * cbn [orb] in A. rewrite A. rewrite bool_decide_eq_false_2 by (intros X; discriminate X). destruct any; reflexivity.
    + exfalso. destruct f; [discriminate H|]. cbn [pem_headers] in H. discriminate H.
  - intros [= <- <-]. exists []. split; [reflexivity|]. split; [constructor|]. split; [exact D|]. rewrite bool_decide_eq_true_2 by reflexivity. destruct any; reflexivity.
Qed.
Lemma blank_line s : fst (get_line s) = [] -> blank_to_end s.
Proof.
  intros H. destruct (get_line s) as [l r] eqn:G. cbn [fst] in H. subst l. apply get_line_split in G as [(w & -> & B & _)|(-> & w & -> & F)].
  - right. exists w, r. auto.
  - left. exact F.
Qed.
Lemma tail_sound ty t : pem_tail_ok ty t = true -> exists rest, t = ty ++ bs "-----" ++ rest /\ blank_to_end rest.
Proof.
  unfold pem_tail_ok. cbv zeta. case_decide as D; [discriminate|]. intros H. apply andb_true_iff in H as [H B]. apply andb_true_iff in H as [P S].
  apply bool_decide_eq_true in B. exists (drop (length ty + length dashes) t). split; [|apply blank_line; exact B].
  rewrite app_assoc. rewrite <- (take_drop (length ty + length dashes) t) at 1. f_equal.
  apply has_prefix_iff in P as [r E]. unfold has_suffix in S. apply andb_true_iff in S as [_ S]. apply bool_decide_eq_true in S.
  assert (length (take (length ty + length dashes) t) = (length ty + length dashes)%nat) as Lt by (rewrite take_length; lia).
  rewrite Lt in S. replace (length ty + length dashes - length dashes)%nat with (length ty) in S by lia. rewrite E in S |- *. rewrite drop_app in S. rewrite S. reflexivity.
Qed.
Lemma at_line_app a b : at_line a -> at_line b -> at_line (a ++ b).
Proof. intros A [-> |[q ->]]; [rewrite app_nil_r; exact A|]. right. exists (a ++ q). rewrite app_assoc. reflexivity. Qed.
Lemma at_line_headers hs : Forall header_line hs -> at_line (concat hs).
Proof. induction 1 as [|h hs (l & -> & _) F IH]; [left; reflexivity|]. cbn [concat]. apply at_line_app; [right; eauto|exact IH]. Qed.
Lemma suffix_end u p : has_suffix p u = true -> u = take (length u - length p) u ++ p.
Proof. unfold has_suffix. intros H. apply andb_true_iff in H as [_ H]. apply bool_decide_eq_true in H. rewrite <- (take_drop (length u - length p) u) at 1. rewrite H. reflexivity. Qed.
Lemma pem_loop_sound f : forall s ty b, pem_loop f s = Some (ty, b) -> exists pre t, s = pre ++ t /\ at_line pre /\ pem_block ty b t.
Proof.
  induction f as [|f IH]; intros s ty b; cbn [pem_loop]; [discriminate|]. cbv zeta.
  set (start := if has_prefix _ s then _ else _). destruct start as [after|] eqn:St; [|discriminate]. subst start.
  assert (exists pre, s = pre ++ bs "-----BEGIN " ++ after /\ at_line pre) as (pre & Es & Ap).
  { destruct (has_prefix (drop 1 pem_start) s) eqn:P.
    - injection St as <-. exists []. split; [|left; reflexivity]. apply has_prefix_drop in P. exact P.
    - destruct (cut pem_start s) as [[u v]|] eqn:C; [|discriminate]. injection St as <-. apply cut_inv in C. exists (u ++ [x0a]). split; [|right; eauto]. rewrite C, <- app_assoc. reflexivity. }
  clear St. destruct (get_line after) as [line rest] eqn:G.
  assert (forall w, after = w ++ rest -> (exists pre' t, rest = pre' ++ t /\ at_line pre' /\ pem_block ty b t) -> at_line (pre ++ bs "-----BEGIN " ++ w) ->
    exists pre t, s = pre ++ t /\ at_line pre /\ pem_block ty b t) as Later.
  { intros w Ew (pre' & t & -> & A' & Pb) Aw. exists ((pre ++ bs "-----BEGIN " ++ w) ++ pre'), t. split; [rewrite Es, Ew, <- !app_assoc; reflexivity|]. split; [apply at_line_app; assumption|exact Pb]. }
  apply get_line_split in G as [(w & Ea & Bw & Nw)|(-> & _)].
  2:{ destruct (negb _); [|cbn [length pem_headers]; rewrite decide_True by reflexivity; discriminate].
      intros H. exfalso. destruct f; [discriminate H|]. cbn [pem_loop] in H. discriminate H. }
  assert (at_line (pre ++ bs "-----BEGIN " ++ line ++ w ++ [x0a])) as Aw by (right; exists (pre ++ bs "-----BEGIN " ++ line ++ w); rewrite <- !app_assoc; reflexivity).
  assert (after = (line ++ w ++ [x0a]) ++ rest) as Ew by (rewrite Ea, <- !app_assoc; reflexivity).
  destruct (has_suffix dashes line) eqn:S; cbn [negb].
  2:{ intros H. destruct (IH _ _ _ H) as (pre' & t & X). eapply Later; [exact Ew|eauto|exact Aw]. }
  apply suffix_end in S. set (ty0 := take (length line - length dashes) line) in *.
  destruct (pem_headers (Datatypes.S (length rest)) false rest) as [[any rest2]|] eqn:H; [|discriminate].
  apply headers_sound in H as (hs & Er & Fh & Nr & An).
  assert (forall w2 : bytes, True -> pem_loop f rest2 = Some (ty, b) -> exists pre t, s = pre ++ t /\ at_line pre /\ pem_block ty b t) as Later2.
  { intros _ _ H. destruct (IH _ _ _ H) as (pre' & t & E' & A' & Pb). eapply Later; [exact Ew| |exact Aw].
    exists (concat hs ++ pre'), t. split; [rewrite Er, E', <- app_assoc; reflexivity|]. split; [apply at_line_app; [apply at_line_headers; exact Fh|exact A']|exact Pb]. }
  destruct (pem_find_end any rest2) as [[body trailer]|] eqn:Fe; [|apply (Later2 []); exact I].
  destruct (pem_tail_ok ty0 trailer) eqn:Tl; [|apply (Later2 []); exact I].
  destruct (b64_decode (remove_blanks body)) as [b'|] eqn:Bd; [|apply (Later2 []); exact I].
  intros [= <- <-]. apply tail_sound in Tl as (rst & -> & Bl). exists pre. eexists. split; [exact Es|]. split; [exact Ap|].
  assert (exists body', rest2 = body' ++ bs "-----END " ++ ty0 ++ bs "-----" ++ rst /\ at_line body' /\ base64_text (no_blanks body') b') as (body' & E2 & Ab & Bb).
  { unfold pem_find_end in Fe. destruct (negb any && has_prefix (drop 1 pem_end) rest2) eqn:Q.
    - injection Fe as <- Et. apply andb_true_iff in Q as [_ Q]. apply has_prefix_drop in Q. exists []. split; [|split; [left; reflexivity|apply b64_exact; exact Bd]].
      change (length (drop 1 pem_end)) with 9%nat in Q. rewrite Et in Q. exact Q.
    - apply cut_inv in Fe. exists (body ++ [x0a]). split; [rewrite Fe, <- app_assoc; reflexivity|]. split; [right; eauto|].
      apply b64_exact. rewrite <- Bd. unfold b64_decode. f_equal. unfold no_blanks, remove_blanks.
      rewrite List.filter_app. cbn [List.filter]. rewrite bool_decide_eq_false_2 by (intros [X|X]; discriminate X). cbn [negb]. rewrite List.filter_app. cbn [List.filter].
      rewrite bool_decide_eq_true_2 by (left; reflexivity). cbn [negb]. rewrite app_nil_r. reflexivity. }
  exists w, hs, body', rst. split; [|split; [exact Bw|split; [|split; [exact Fh|split; [exact Ab|split; [exact Bb|exact Bl]]]]]].
  - rewrite Ea, S, Er, E2. rewrite <- !app_assoc. reflexivity.
  - rewrite S in Nw. set_solver.
Qed.
Lemma pem_sound s ty b : pem_decode s = Some (ty, b) -> exists pre t, s = pre ++ t /\ at_line pre /\ pem_block ty b t.
Proof. apply pem_loop_sound. Qed.

(** Facts about durations with a decimal point. *)
From Coq Require Import Floats.SpecFloat.
From Verif Require Export SpecFraction DurationFacts.
Local Open Scope Z_scope.

Fixpoint scaled (n : nat) (x : spec_float) : spec_float :=
  match n with O => x | S n => scaled n (f_mul x (f_of_int 10)) end.
Lemma leading_fraction_lost ls r : forall x sc, Forall numeral ls -> no_numeral_first r -> leading_fraction x sc true (ls ++ r) = (x, sc, r).
Proof.
  induction ls as [|c ls IH]; intros x sc F N.
  - cbn [app]. destruct r as [|c r]; [reflexivity|]. cbn in N. cbn [leading_fraction]. destruct (is_num c) eqn:E; [apply is_num_true in E; contradiction|reflexivity].
  - apply Forall_cons in F as [Hc F]. cbn [app leading_fraction]. rewrite (proj2 (is_num_true c) Hc). apply IH; auto.
Qed.
Lemma leading_fraction_ok fs ls r : forall x sc, 0 <= x -> fold_left (fun a c => a * 10 + (bz c - 48)) fs x <= 2 ^ 63 ->
  match ls with c :: _ => 2 ^ 63 < fold_left (fun a c => a * 10 + (bz c - 48)) (fs ++ [c]) x | [] => True end ->
  Forall numeral fs -> Forall numeral ls -> no_numeral_first r ->
  leading_fraction x sc false (fs ++ ls ++ r) = (fold_left (fun a c => a * 10 + (bz c - 48)) fs x, scaled (length fs) sc, r).
Proof.
  induction fs as [|c fs IH]; intros x sc Hx Hf Hl F Fl N.
  - cbn [app fold_left length scaled]. destruct ls as [|c ls].
    + cbn [app]. destruct r as [|c r]; [reflexivity|]. cbn in N. cbn [leading_fraction].
      destruct (is_num c) eqn:E; [apply is_num_true in E; contradiction|reflexivity].
    + cbn [app fold_left] in Hl. apply Forall_cons in Fl as [Hc Fl]. cbn [app leading_fraction]. rewrite (proj2 (is_num_true c) Hc).
      destruct (decide (x > _)) as [_|_]; [apply leading_fraction_lost; auto|]. cbv zeta. rewrite decide_True by lia. apply leading_fraction_lost; auto.
  - apply Forall_cons in F as [Hc F]. cbn [app leading_fraction]. rewrite (proj2 (is_num_true c) Hc). pose proof Hc as Hc'. unfold numeral in Hc'. cbn [fold_left] in Hf.
    pose proof (number_from_ge fs (x * 10 + (bz c - 48)) ltac:(lia) F) as G.
    rewrite decide_False. 2: { change ((2 ^ 63 - 1) / 10) with 922337203685477580. change (2 ^ 63) with 9223372036854775808 in Hf. lia. }
    cbv zeta. rewrite decide_False by lia.
    rewrite IH; [reflexivity|lia|exact Hf| |exact F|exact Fl|exact N]. destruct ls; [exact Logic.I|]. exact Hl.
Qed.
Lemma number_short fs : Forall numeral fs -> 0 <= number fs < 10 ^ Z.of_nat (length fs).
Proof.
  induction fs as [|c fs IH] using rev_ind; intros F; [cbn; lia|]. apply Forall_app in F as [F Hc]. apply Forall_cons in Hc as [Hc _]. unfold numeral in Hc.
  specialize (IH F). unfold number in *. rewrite fold_left_app, app_length, Nat2Z.inj_add, Z.pow_add_r by lia. cbn [fold_left length]. change (10 ^ Z.of_nat 1) with 10. lia.
Qed.
Lemma scaled_is k : (k <= 22)%nat -> scaled k (f_of_int 1) = double (10 ^ Z.of_nat k).
Proof. intros H. do 23 (destruct k as [|k]; [vm_compute; reflexivity|]). lia. Qed.
Lemma below_is x : f_to_int x = below x.
Proof.
  unfold f_to_int, below. destruct x as [| | |[] m e]; try reflexivity. destruct (decide _) as [H|H].
  - rewrite Z.shiftl_mul_pow2 by lia. reflexivity.
  - rewrite <- (Z.opp_involutive e) at 2. rewrite Z.shiftl_opp_r, Z.shiftr_div_pow2 by lia. reflexivity.
Qed.
Lemma part_fraction ds fs ls u n r : (ds <> [] \/ fs <> []) -> kept fs ls -> Forall numeral ds -> Forall numeral fs -> Forall numeral ls -> (length fs <= 22)%nat -> (u, n) ∈ duration_units ->
  numeral_first r -> 0 <= fraction fs n -> number ds * n + fraction fs n <= 2 ^ 63 ->
  duration_part (ds ++ x2e :: fs ++ ls ++ u ++ r) = Some (number ds * n + fraction fs n, r).
Proof.
  intros Ne K F Ff Fl Lf I Hr Hf B. destruct (unit_shape _ _ I) as (Nu & Pn & Fu & U).
  assert (P : 0 <= number ds) by (apply (number_from_ge ds 0); auto; lia).
  assert (Pf : 0 <= number fs) by (apply (number_from_ge fs 0); auto; lia).
  assert (B1 : number ds <= 2 ^ 63) by nia.
  assert (LI : leading_int 0 (ds ++ x2e :: fs ++ ls ++ u ++ r) = Some (number ds, x2e :: fs ++ ls ++ u ++ r)).
  { apply leading_int_ok; auto; [lia|]. exact dot_no_numeral. }
  assert (no_numeral_first (u ++ r)) as Nr by (destruct u as [|cu u]; [congruence|]; apply Forall_cons in Fu as [[_ H] _]; exact H).
  assert (LF : leading_fraction 0 (f_of_int 1) false (fs ++ ls ++ u ++ r) = (number fs, double (10 ^ Z.of_nat (length fs)), u ++ r)).
  { destruct K as [K1 K2]. rewrite (leading_fraction_ok fs ls (u ++ r) 0 (f_of_int 1)); auto; [|lia]. rewrite scaled_is by exact Lf. reflexivity. }
  assert (exists c q, ds ++ x2e :: fs ++ ls ++ u ++ r = c :: q /\ bool_decide (c = x2e) || is_num c = true) as (c & q & E & Hc).
  { destruct ds as [|d ds]; [do 2 eexists; split; [reflexivity|]; reflexivity|]. do 2 eexists. split; [reflexivity|].
    apply Forall_cons in F as [Hd _]. rewrite (proj2 (is_num_true d) Hd). apply orb_true_r. }
  unfold duration_part. rewrite E, Hc. cbn [negb]. rewrite <- E, LI. rewrite decide_True by reflexivity. rewrite LF.
  assert (negb (negb (bool_decide (length (x2e :: fs ++ ls ++ u ++ r) = length (ds ++ x2e :: fs ++ ls ++ u ++ r)))) &&
          negb (negb (bool_decide (length (u ++ r) = length (fs ++ ls ++ u ++ r)))) = false) as ->.
  { rewrite !negb_involutive. apply andb_false_iff. rewrite !bool_decide_eq_false. rewrite (app_length ds), (app_length fs), (app_length ls).
    destruct Ne as [Ne|Ne]; [left; destruct ds; [contradiction|cbn [length]; lia]|right; destruct fs; [contradiction|cbn [length]; lia]]. }
  rewrite unit_text_ok by auto. rewrite decide_False by exact Nu. rewrite U.
  rewrite decide_False. 2: { intros K'. pose proof (Z.mul_succ_div_gt (2 ^ 63) n Pn). nia. }
  cbv zeta. rewrite below_is. change (below (f_mul (f_of_int (number fs)) (f_div (f_of_int n) (double (10 ^ Z.of_nat (length fs)))))) with (fraction fs n).
  destruct (decide (number fs > 0)) as [Hp|Hp].
  - rewrite decide_False by lia. reflexivity.
  - assert (fraction fs n = 0) as ->; [|rewrite Z.add_0_r; reflexivity]. unfold fraction. replace (number fs) with 0 by lia.
    change (double 0) with (S754_zero false). destruct (SFdiv 53 1024 (double n) (double (10 ^ Z.of_nat (length fs)))); reflexivity.
Qed.
(** A sign and one number with a point. *)
Lemma fraction_kept ds fs ls u n (neg : bool) : (ds <> [] \/ fs <> []) -> kept fs ls -> Forall numeral ds -> Forall numeral fs -> Forall numeral ls -> (length fs <= 22)%nat -> (u, n) ∈ duration_units ->
  0 <= fraction fs n -> number ds * n + fraction fs n <= 2 ^ 63 - (if neg then 0 else 1) ->
  parse_duration ((if neg then bs "-" else []) ++ ds ++ x2e :: fs ++ ls ++ u) =
    Some (if neg then - (number ds * n + fraction fs n) else number ds * n + fraction fs n).
Proof.
  intros Ne K F Ff Fl Lf I Hf B. destruct (unit_shape _ _ I) as (Nu & Pn & _).
  assert (P0 : 0 <= number ds) by (apply (number_from_ge ds 0); auto; lia).
  pose proof (part_fraction ds fs ls u n [] Ne K F Ff Fl Lf I Logic.I Hf ltac:(destruct neg; lia)) as P. rewrite app_nil_r in P.
  remember (ds ++ x2e :: fs ++ ls ++ u) as body eqn:Eb.
  assert (exists c q, body = c :: q /\ c <> x2d /\ c <> x2b) as (c & q & E & H1 & H2).
  { subst body. destruct ds as [|d ds]; [do 2 eexists; split; [reflexivity|]; split; discriminate|]. do 2 eexists. split; [reflexivity|].
    apply Forall_cons in F as [Hd _]. unfold numeral in Hd. split; intros ->; cbn in Hd; lia. }
  assert (body <> bs "0") as Nz.
  { intros K'. assert (x2e ∈ body) as Hin by (subst body; apply elem_of_app; right; left). rewrite K' in Hin. apply elem_of_list_In in Hin. cbn in Hin. intuition discriminate. }
  assert (duration_loop (length body) 0 body = Some (number ds * n + fraction fs n)) as L.
  { rewrite E. cbn [length duration_loop]. rewrite <- E, P. cbv zeta. rewrite Z.add_0_l, Z.mod_small by (change (2 ^ 64) with (2 * 2 ^ 63); destruct neg; nia).
    rewrite decide_False by (destruct neg; lia). destruct (length q); reflexivity. }
  unfold parse_duration. destruct neg.
  - change (bs "-" ++ body) with (x2d :: body). cbv beta iota zeta. rewrite bool_decide_eq_true_2 by reflexivity. rewrite (decide_True (P := x2d = x2d \/ x2d = x2b)) by auto.
    rewrite decide_False by exact Nz. rewrite decide_False by (rewrite E; discriminate). rewrite L. reflexivity.
  - cbn [app]. rewrite E in L, Nz |- *. cbv beta iota zeta. rewrite bool_decide_eq_false_2 by exact H1. rewrite (decide_False (P := c = x2d \/ c = x2b)) by tauto.
    rewrite decide_False by exact Nz. rewrite decide_False by discriminate. rewrite L. rewrite decide_False by lia. reflexivity.
Qed.
Lemma fraction_ok ds fs u n (neg : bool) : (ds <> [] \/ fs <> []) -> Forall numeral ds -> Forall numeral fs -> (length fs <= 18)%nat -> (u, n) ∈ duration_units ->
  0 <= fraction fs n -> number ds * n + fraction fs n <= 2 ^ 63 - (if neg then 0 else 1) ->
  parse_duration ((if neg then bs "-" else []) ++ ds ++ x2e :: fs ++ u) =
    Some (if neg then - (number ds * n + fraction fs n) else number ds * n + fraction fs n).
Proof.
  intros Ne F Ff Lf I Hf B. apply (fraction_kept ds fs [] u n neg); [exact Ne| |exact F|exact Ff|constructor|lia|exact I|exact Hf|exact B]. split; [|exact Logic.I].
  destruct (number_short fs Ff) as [_ S]. assert (10 ^ Z.of_nat (length fs) <= 10 ^ 18) as L by (apply Z.pow_le_mono_r; lia).
  change (10 ^ 18) with 1000000000000000000 in L. change (2 ^ 63) with 9223372036854775808. lia.
Qed.

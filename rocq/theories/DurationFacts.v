(** Facts about durations: [time.ParseDuration] against the grammar of SpecMains. *)
From Verif Require Export Duration SpecMains BytesFacts.
Local Open Scope Z_scope.

Lemma is_num_true c : is_num c = true <-> numeral c.
Proof. unfold is_num, numeral. apply bool_decide_eq_true. Qed.
Definition numeral_first (s : bytes) : Prop := match s with c :: _ => numeral c | [] => True end.
Definition no_numeral_first (s : bytes) : Prop := match s with c :: _ => ~ numeral c | [] => True end.

Lemma number_from_ge ds : forall x, 0 <= x -> Forall numeral ds -> x <= fold_left (fun a c => a * 10 + (bz c - 48)) ds x.
Proof.
  induction ds as [|c ds IH]; intros x Hx F; cbn [fold_left]; [lia|]. apply Forall_cons in F as [Hc F]. unfold numeral in Hc.
  specialize (IH (x * 10 + (bz c - 48)) ltac:(lia) F). lia.
Qed.
Lemma leading_int_ok ds r : forall x, 0 <= x -> Forall numeral ds -> no_numeral_first r ->
  fold_left (fun a c => a * 10 + (bz c - 48)) ds x <= 2 ^ 63 -> leading_int x (ds ++ r) = Some (fold_left (fun a c => a * 10 + (bz c - 48)) ds x, r).
Proof.
  induction ds as [|c ds IH]; intros x Hx F Hr B; cbn [fold_left app] in *.
  - destruct r as [|c r]; [reflexivity|]. cbn in Hr. cbn [leading_int]. destruct (is_num c) eqn:E; [|reflexivity].
    apply is_num_true in E. contradiction.
  - apply Forall_cons in F as [Hc F]. cbn [leading_int]. rewrite (proj2 (is_num_true c) Hc). unfold numeral in Hc.
    pose proof (number_from_ge ds (x * 10 + (bz c - 48)) ltac:(lia) F) as G.
    rewrite decide_False. 2:{ intros K. change (2 ^ 63 / 10) with 922337203685477580 in K. change (2 ^ 63) with 9223372036854775808 in B. lia. }
    cbv zeta. rewrite decide_False by lia. apply IH; auto; lia.
Qed.
Lemma leading_int_inv s : forall x v r, 0 <= x <= 2 ^ 63 -> leading_int x s = Some (v, r) ->
  exists ds, s = ds ++ r /\ Forall numeral ds /\ v = fold_left (fun a c => a * 10 + (bz c - 48)) ds x /\ 0 <= v <= 2 ^ 63 /\ no_numeral_first r.
Proof.
  induction s as [|c s IH]; intros x v r Hx; cbn [leading_int].
  - intros [= <- <-]. exists []. repeat split; auto; lia.
  - destruct (is_num c) eqn:E.
    + apply is_num_true in E. destruct (decide (x > 2 ^ 63 / 10)); [discriminate|]. destruct (decide _); [discriminate|].
      intros H. apply IH in H; [|unfold numeral in E; lia]. destruct H as (ds & -> & F & -> & B & N). exists (c :: ds). repeat split; auto; lia.
    + intros [= <- <-]. exists []. split; [reflexivity|]. split; [constructor|]. split; [reflexivity|]. split; [lia|].
      cbn. intros K. apply is_num_true in K. congruence.
Qed.

Lemma units_shape : Forall (fun p => fst p <> [] /\ 0 < snd p /\ Forall (fun c => c <> x2e /\ ~ numeral c) (fst p) /\ unit_of (fst p) = Some (snd p)) duration_units.
Proof.
  unfold duration_units.
  assert (G : forall u (n : Z), forallb (fun c => negb (bool_decide (c = x2e)) && negb (is_num c)) u = true -> Forall (fun c => c <> x2e /\ ~ numeral c) u).
  { intros u _ H. rewrite forallb_forall in H. apply Forall_forall. intros c I. apply elem_of_list_In in I. specialize (H c I).
    apply andb_true_iff in H as [H1 H2]. apply negb_true_iff in H1, H2. apply bool_decide_eq_false in H1. split; [exact H1|].
    intros K. apply is_num_true in K. congruence. }
  repeat (apply Forall_cons; split; [cbn [fst snd]; split; [discriminate|split; [lia|split; [apply (G _ 0); vm_compute; reflexivity|vm_compute; reflexivity]]]|]). constructor.
Qed.
Lemma unit_shape u n : (u, n) ∈ duration_units -> u <> [] /\ 0 < n /\ Forall (fun c => c <> x2e /\ ~ numeral c) u /\ unit_of u = Some n.
Proof. intros I. pose proof (proj1 (Forall_forall _ _) units_shape _ I) as H. exact H. Qed.
Lemma unit_of_inv u n : unit_of u = Some n -> (u, n) ∈ duration_units.
Proof.
  unfold unit_of, duration_units. intros H.
  repeat match type of H with context [decide ?P] => destruct (decide P) as [E|_] end; try discriminate H; injection H as <-;
    [subst|destruct E as [-> |[-> | ->]]|subst..]; repeat (apply elem_of_list_here || apply elem_of_list_further).
Qed.
Lemma unit_text_ok u r : Forall (fun c => c <> x2e /\ ~ numeral c) u -> numeral_first r -> unit_text (u ++ r) = (u, r).
Proof.
  intros F N. induction F as [|c u [H1 H2] F IH]; cbn [app unit_text].
  - destruct r as [|c r]; [reflexivity|]. cbn in N. cbn [unit_text]. rewrite (proj2 (is_num_true c) N). now rewrite orb_true_r.
  - rewrite bool_decide_eq_false_2 by exact H1. destruct (is_num c) eqn:E; [apply is_num_true in E; contradiction|]. cbn [orb]. now rewrite IH.
Qed.
Lemma unit_text_inv s : forall u r, unit_text s = (u, r) -> s = u ++ r /\ (x2e ∉ s -> numeral_first r).
Proof.
  induction s as [|c s IH]; intros u r; cbn [unit_text].
  - intros [= <- <-]. split; [reflexivity|]. intros _. exact I.
  - destruct (bool_decide (c = x2e) || is_num c) eqn:E.
    + intros [= <- <-]. split; [reflexivity|]. intros N. cbn. apply orb_true_iff in E as [E|E]; [|now apply is_num_true].
      apply bool_decide_eq_true in E as ->. exfalso. apply N. left.
    + destruct (unit_text s) as [u' r'] eqn:U. intros [= <- <-]. destruct (IH _ _ eq_refl) as [-> K]. split; [reflexivity|].
      intros N. apply K. intros I. apply N. now right.
Qed.
Lemma dot_no_numeral : ~ numeral x2e.
Proof. unfold numeral. vm_compute. intros []. auto. Qed.

Lemma part_ok ds u n r : ds <> [] -> Forall numeral ds -> (u, n) ∈ duration_units -> numeral_first r -> number ds * n <= 2 ^ 63 ->
  duration_part (ds ++ u ++ r) = Some (number ds * n, r).
Proof.
  intros N F I Hr B. destruct (unit_shape _ _ I) as (Nu & Pn & Fu & U).
  assert (P : 0 <= number ds) by (apply (number_from_ge ds 0); auto; lia).
  assert (B1 : number ds <= 2 ^ 63) by nia.
  destruct u as [|cu u]; [congruence|]. pose proof Fu as Fu'. apply Forall_cons in Fu' as [[Hd Hn] _].
  assert (LI : leading_int 0 (ds ++ (cu :: u) ++ r) = Some (number ds, (cu :: u) ++ r)).
  { apply leading_int_ok; auto. lia. }
  destruct ds as [|d ds]; [congruence|]. pose proof F as F'. apply Forall_cons in F' as [Hdd _].
  unfold duration_part. cbn [app] in LI |- *. rewrite (proj2 (is_num_true d) Hdd), orb_true_r. cbn [negb]. rewrite LI.
  rewrite bool_decide_eq_false_2 by (cbn [length]; rewrite !app_length; cbn [length]; rewrite app_length; lia). cbn [negb andb].
  rewrite decide_False by exact Hd. cbn [negb andb].
  change (cu :: u ++ r) with ((cu :: u) ++ r). rewrite unit_text_ok by auto. rewrite decide_False by discriminate. rewrite U.
  rewrite decide_False. 2:{ intros K. pose proof (Z.mul_succ_div_gt (2 ^ 63) n Pn). nia. }
  rewrite decide_False by lia. reflexivity.
Qed.
Lemma part_inv s v r : x2e ∉ s -> duration_part s = Some (v, r) ->
  exists ds u n, s = ds ++ u ++ r /\ ds <> [] /\ Forall numeral ds /\ (u, n) ∈ duration_units /\ v = number ds * n /\ 0 <= v <= 2 ^ 63 /\ numeral_first r.
Proof.
  intros N. unfold duration_part. destruct s as [|c s0]; [discriminate|]. set (s := c :: s0) in *.
  destruct (negb _); [discriminate|]. destruct (leading_int 0 s) as [[v1 s1]|] eqn:LI; [|discriminate].
  apply leading_int_inv in LI; [|lia]. destruct LI as (ds & E & F & Ev & B & _).
  assert (N1 : x2e ∉ s1). { intros I. apply N. rewrite E. apply elem_of_app. now right. }
  assert (D : match s1 with
     | p :: r => if decide (p = x2e) then let '(f, scale, s2) := leading_fraction 0 (f_of_int 1) false r in (f, scale, s2, negb (bool_decide (length s2 = length r)))
                 else (0, f_of_int 1, s1, false)
     | [] => (0, f_of_int 1, s1, false) end = (0, f_of_int 1, s1, false)).
  { destruct s1 as [|p q]; [reflexivity|]. rewrite decide_False; [reflexivity|]. intros ->. apply N1. left. }
  rewrite D. clear D. cbn [negb]. rewrite andb_true_r. destruct (negb (negb (bool_decide (length s1 = length s)))) eqn:L; [discriminate|].
  apply negb_false_iff, negb_true_iff, bool_decide_eq_false in L.
  destruct (unit_text s1) as [u s3] eqn:U. apply unit_text_inv in U as [E1 K]. destruct (decide (u = [])); [discriminate|].
  destruct (unit_of u) as [n0|] eqn:Un; [|discriminate]. apply unit_of_inv in Un. destruct (unit_shape _ _ Un) as (_ & Pn & _ & _).
  destruct (decide (v1 > 2 ^ 63 / n0)) as [|G]; [discriminate|]. rewrite decide_False by lia. intros [= <- <-].
  exists ds, u, n0. split; [now rewrite E, E1|]. split; [intros ->; apply L; rewrite E; reflexivity|]. split; [exact F|]. split; [exact Un|].
  split; [now rewrite Ev|]. split; [|now apply K]. split; [nia|].
  pose proof (Z.mul_div_le (2 ^ 63) n0 Pn). nia.
Qed.
Lemma amounts_first s l : amounts s l -> numeral_first s.
Proof. intros [|ds u n s' l' N F _ _]; [exact I|]. destruct ds as [|d ds]; [congruence|]. apply Forall_cons in F as [H _]. exact H. Qed.
Lemma amounts_nonneg s l : amounts s l -> Forall (fun x => 0 <= x) l.
Proof.
  induction 1 as [|ds u n s l N F I _ IH]; constructor; [|exact IH].
  destruct (unit_shape _ _ I) as (_ & P & _). assert (0 <= number ds) by (apply (number_from_ge ds 0); auto; lia). nia.
Qed.
Lemma total_nonneg l : Forall (fun x => 0 <= x) l -> 0 <= sum_of l.
Proof. unfold sum_of. induction 1; cbn [fold_right]; lia. Qed.

Lemma loop_ok s l : amounts s l -> forall n d, (length s <= n)%nat -> 0 <= d -> d + sum_of l <= 2 ^ 63 -> duration_loop n d s = Some (d + sum_of l).
Proof.
  induction 1 as [|ds u k s l N F I A IH]; intros n d Hn Hd B.
  - destruct n; cbn; f_equal; lia.
  - pose proof (amounts_first _ _ A) as NF. pose proof (total_nonneg _ (amounts_nonneg _ _ A)) as T.
    destruct (unit_shape _ _ I) as (Nu & P & _). assert (Pd : 0 <= number ds) by (apply (number_from_ge ds 0); auto; lia).
    unfold sum_of in B; cbn [fold_right] in B; fold (sum_of l) in B.
    assert (Ls : (length s < n)%nat).
    { rewrite !app_length in Hn. destruct ds; [congruence|]. destruct u; [congruence|]. cbn in Hn. lia. }
    destruct n as [|n]; [lia|].
    assert (Ne : ds ++ u ++ s <> []) by (destruct ds; [congruence|discriminate]).
    pose proof (part_ok ds u k s N F I NF ltac:(nia)) as PO.
    destruct (ds ++ u ++ s) as [|c q] eqn:E; [congruence|]. cbn [duration_loop]. rewrite PO. cbv zeta.
    rewrite Z.mod_small by (change (2 ^ 64) with (2 * 2 ^ 63); nia).
    rewrite decide_False by nia. rewrite IH; [|lia|nia|lia]. f_equal. unfold sum_of; cbn [fold_right]. fold (sum_of l). lia.
Qed.
Lemma loop_inv n : forall s d e, x2e ∉ s -> 0 <= d <= 2 ^ 63 -> duration_loop n d s = Some e ->
  exists l, amounts s l /\ Forall (fun x => x <= 2 ^ 63) l /\ e = (d + sum_of l) mod 2 ^ 64 /\ 0 <= e <= 2 ^ 63.
Proof.
  assert (Z64 : 2 ^ 64 = 2 * 2 ^ 63) by reflexivity.
  induction n as [|n IH]; intros s d e N Hd.
  - destruct s; cbn; [|discriminate]. intros [= <-]. exists []. split; [constructor|]. split; [constructor|]. cbn. rewrite Z.add_0_r, Z.mod_small by lia. lia.
  - destruct s as [|c q]; [cbn; intros [= <-]; exists []; split; [constructor|]; split; [constructor|]; cbn; rewrite Z.add_0_r, Z.mod_small by lia; lia|].
    cbn [duration_loop]. destruct (duration_part (c :: q)) as [[v r]|] eqn:P; [|discriminate].
    apply part_inv in P as (ds & u & k & E & Nd & F & I & Ev & B & NF); [|exact N]. cbv zeta.
    destruct (decide _) as [|G]; [discriminate|]. intros L.
    apply IH in L as (l & A & Fl & -> & Be).
    + exists (number ds * k :: l). split; [rewrite E; now constructor|]. split; [constructor; [lia|exact Fl]|]. split; [|exact Be].
      unfold sum_of; cbn [fold_right]. fold (sum_of l). rewrite Zplus_mod_idemp_l. f_equal. lia.
    + intros I'. apply N. rewrite E. rewrite !elem_of_app. auto.
    + pose proof (Z.mod_pos_bound (d + v) (2 ^ 64) eq_refl). lia.
Qed.

Lemma amounts_not_zero s l : amounts s l -> s <> bs "0".
Proof.
  intros [|ds u n s' l' N F I _]; [discriminate|]. destruct (unit_shape _ _ I) as (Nu & _).
  intros E. apply (f_equal (@length byte)) in E. rewrite !app_length in E. destruct ds; [congruence|]. destruct u; [congruence|]. cbn in E. lia.
Qed.
Lemma duration_ok s neg l : duration s neg l -> sum_of l <= 2 ^ 63 - (if neg then 0 else 1) -> parse_duration s = Some (if neg then - sum_of l else sum_of l).
Proof.
  intros (sign & body & -> & S & Bd) T.
  assert (Core : forall ng, ng = neg -> (if decide (body = bs "0") then Some 0 else if decide (body = []) then None else
     match duration_loop (length body) 0 body with None => None | Some d => if ng : bool then Some (- d) else if decide (d > 2 ^ 63 - 1) then None else Some d end)
     = Some (if neg then - sum_of l else sum_of l)).
  { intros ng ->. destruct Bd as [[-> ->]|[Ne A]].
    - rewrite decide_True by reflexivity. destruct neg; reflexivity.
    - rewrite decide_False by (eapply amounts_not_zero; eauto). rewrite decide_False by exact Ne.
      rewrite (loop_ok _ _ A) by (destruct neg; lia). rewrite Z.add_0_l. destruct neg; [reflexivity|]. now rewrite decide_False by lia. }
  assert (Hd : forall c r, body = c :: r -> numeral c).
  { intros c r ->. destruct Bd as [[E _]|[_ A]]; [|now apply amounts_first in A]. injection E as -> ->. unfold numeral. vm_compute. split; discriminate. }
  destruct S as [[[-> | ->] Hneg]|[-> Hneg]]; unfold parse_duration.
  - cbn [app]. destruct body as [|c r]; [destruct Bd as [[E _]|[Ne _]]; [discriminate E|congruence]|]. pose proof (Hd c r eq_refl) as Hc.
    assert (K : forall x, ~ numeral x -> c <> x) by (intros x Hx ->; auto).
    assert (c <> x2d) by (apply K; intros Hk; apply is_num_true in Hk; vm_compute in Hk; discriminate Hk). assert (c <> x2b) by (apply K; intros Hk; apply is_num_true in Hk; vm_compute in Hk; discriminate Hk).
    rewrite bool_decide_eq_false_2 by auto. rewrite (decide_False (P := c = x2d \/ c = x2b)) by tauto. exact (Core false (eq_sym Hneg)).
  - cbn [app bs]. change (bs "+" ++ body) with (x2b :: body). cbv iota beta. rewrite bool_decide_eq_false_2 by discriminate.
    rewrite (decide_True (P := x2b = x2d \/ x2b = x2b)) by auto. exact (Core false (eq_sym Hneg)).
  - change (bs "-" ++ body) with (x2d :: body). cbv iota beta. rewrite bool_decide_eq_true_2 by reflexivity.
    rewrite (decide_True (P := x2d = x2d \/ x2d = x2b)) by auto. exact (Core true (eq_sym Hneg)).
Qed.
Lemma duration_inv s d : x2e ∉ s -> parse_duration s = Some d ->
  exists neg l, duration s neg l /\ Forall (fun x => x <= 2 ^ 63) l /\ (if neg then - d else d) = sum_of l mod 2 ^ 64 /\ - 2 ^ 63 <= d < 2 ^ 63.
Proof.
  intros N.
  assert (Core : forall sign body neg, s = sign ++ body -> ((sign = [] \/ sign = bs "+") /\ neg = false \/ sign = bs "-" /\ neg = true) ->
     (if decide (body = bs "0") then Some 0 else if decide (body = []) then None else
     match duration_loop (length body) 0 body with None => None | Some d => if neg : bool then Some (- d) else if decide (d > 2 ^ 63 - 1) then None else Some d end) = Some d ->
     exists neg l, duration s neg l /\ Forall (fun x => x <= 2 ^ 63) l /\ (if neg then - d else d) = sum_of l mod 2 ^ 64 /\ - 2 ^ 63 <= d < 2 ^ 63).
  { intros sign body neg E S H. destruct (decide (body = bs "0")) as [->|N0].
    - injection H as <-. exists neg, []. split; [exists sign, (bs "0"); auto|]. split; [constructor|]. split; [destruct neg; reflexivity|lia].
    - destruct (decide (body = [])) as [|Ne]; [discriminate|].
      destruct (duration_loop (length body) 0 body) as [e|] eqn:L; [|discriminate].
      apply loop_inv in L as (l & A & F & Ee & B); [|intros I; apply N; rewrite E, elem_of_app; auto|lia]. rewrite Z.add_0_l in Ee.
      exists neg, l. split; [exists sign, body; auto|]. split; [exact F|]. destruct neg.
      + injection H as <-. split; lia.
      + destruct (decide _); [discriminate|]. injection H as <-. split; lia. }
  unfold parse_duration. destruct s as [|c r].
  - apply (Core [] [] false); auto.
  - destruct (decide (c = x2d \/ c = x2b)) as [[-> | ->]|Nc].
    + rewrite bool_decide_eq_true_2 by reflexivity. apply (Core (bs "-") r true); auto.
    + rewrite bool_decide_eq_false_2 by discriminate. apply (Core (bs "+") r false); auto.
    + rewrite bool_decide_eq_false_2 by tauto. apply (Core [] (c :: r) false); auto.
Qed.
(** A sum that is too large by 2^64 is not noticed. *)
Lemma duration_wraps s l : s <> [] -> amounts s l -> sum_of l < 2 ^ 63 ->
  parse_duration (bs "9223372036854775808ns9223372036854775808ns" ++ s) = Some (sum_of l).
Proof.
  intros Ne A T. set (x := bs "9223372036854775808").
  assert (Fx : Forall numeral x). { apply Forall_forall. intros c I. apply is_num_true. revert c I. apply Forall_forall. unfold x. repeat constructor. }
  assert (Nx : number x = 2 ^ 63) by (vm_compute; reflexivity).
  assert (Iu : (bs "ns", 1) ∈ duration_units) by left.
  assert (P : forall r, numeral_first r -> duration_part (x ++ bs "ns" ++ r) = Some (2 ^ 63, r)).
  { intros r Hr. rewrite (part_ok x (bs "ns") 1 r); auto; first [now rewrite Nx|discriminate|rewrite Nx; lia]. }
  change (bs "9223372036854775808ns9223372036854775808ns" ++ s) with (x ++ bs "ns" ++ x ++ bs "ns" ++ s).
  assert (St : forall n d q e, numeral_first q -> (d + 2 ^ 63) mod 2 ^ 64 <= 2 ^ 63 -> duration_loop n ((d + 2 ^ 63) mod 2 ^ 64) q = e ->
     duration_loop (S n) d (x ++ bs "ns" ++ q) = e).
  { intros n d q e Hq Hd <-. pose proof (P q Hq) as PQ. unfold duration_loop; fold duration_loop.
    change (x ++ bs "ns" ++ q) with (x39 :: drop 1 (x ++ bs "ns") ++ q) in *. rewrite PQ. cbv zeta. now rewrite decide_False by lia. }
  set (t := x ++ bs "ns" ++ s). set (y := x ++ bs "ns" ++ t).
  assert (Lo : duration_loop (length y) 0 y = Some (sum_of l)).
  { unfold y. rewrite !app_length. replace (length x + (length (bs "ns") + length t))%nat with (S (20 + length t)) by (cbn; lia).
    apply St; [cbn; unfold numeral; vm_compute; split; discriminate|vm_compute; discriminate|].
    change ((0 + 2 ^ 63) mod 2 ^ 64) with (2 ^ 63). unfold t. rewrite !app_length.
    replace (20 + (length x + (length (bs "ns") + length s)))%nat with (S (40 + length s)) by (cbn; lia).
    apply St; [now apply amounts_first in A|vm_compute; discriminate|]. change ((2 ^ 63 + 2 ^ 63) mod 2 ^ 64) with 0.
    rewrite (loop_ok _ _ A) by lia. reflexivity. }
  fold t. fold y. unfold parse_duration.
  assert (Hy : y = x39 :: drop 1 y) by reflexivity.
  rewrite Hy. rewrite (decide_False (P := x39 = x2d \/ x39 = x2b)) by (intros [|]; discriminate). rewrite bool_decide_eq_false_2 by discriminate.
  rewrite <- Hy. rewrite (decide_False (P := y = bs "0")) by (rewrite Hy; intros K; injection K; discriminate).
  rewrite (decide_False (P := y = [])) by (rewrite Hy; discriminate). rewrite Lo. now rewrite decide_False by lia.
Qed.

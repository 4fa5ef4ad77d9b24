(** Proofs about Calendar.v. *)
From Verif Require Export Calendar SpecCalendar ShowFacts.
Local Open Scope Z_scope.

(** *** Leap years *)
Lemma is_leap_spec y : is_leap y = true <-> leap_year y.
Proof.
  unfold is_leap, leap_year. rewrite <- !Z.mod_divide by lia. rewrite andb_true_iff, orb_true_iff, negb_true_iff, bool_decide_eq_false, !bool_decide_eq_true.
  split; [intros (A & [B|B])|intros [(A & B)|B]]; auto. split; [lia|auto].
Qed.
Lemma is_leap_false y : is_leap y = false <-> ~ leap_year y.
Proof. rewrite <- is_leap_spec. destruct (is_leap y); split; intros; try congruence. Qed.

(** *** Counting days since the beginning of the year 1 *)
Definition before_year (y : Z) : Z := let x := y - 1 in 365 * x + x / 4 - x / 100 + x / 400.
Definition before_month (leap : bool) (m : Z) : Z :=
  nth (Z.to_nat (m - 1)) days_before 0 + (if leap && bool_decide (2 < m) then 1 else 0).
Definition month_size (leap : bool) (m : Z) : Z := before_month leap (m + 1) - before_month leap m.
Definition day_number (x : Z * Z * Z) : Z :=
  let '(y, m, d) := x in before_year y + before_month (is_leap y) m + d - 1.
Definition real_date (x : Z * Z * Z) : Prop :=
  let '(y, m, d) := x in 1 <= m <= 12 /\ 1 <= d <= month_size (is_leap y) m.

Lemma months m : 1 <= m <= 12 -> m = 1 \/ m = 2 \/ m = 3 \/ m = 4 \/ m = 5 \/ m = 6 \/ m = 7 \/ m = 8 \/ m = 9 \/ m = 10 \/ m = 11 \/ m = 12.
Proof. lia. Qed.
Ltac by_month H :=
  let X := fresh in pose proof (months _ H) as X; destruct X as [X|[X|[X|[X|[X|[X|[X|[X|[X|[X|[X|X]]]]]]]]]]]; subst.
Lemma month_length_size y m n : 1 <= m <= 12 -> month_length y m n <-> n = month_size (is_leap y) m.
Proof.
  intros H. unfold month_length. by_month H; destruct (is_leap y) eqn:E; (apply is_leap_spec in E || apply is_leap_false in E);
    match goal with |- _ <-> _ = ?x => let v := eval vm_compute in x in change x with v end; split; intros; destruct_or?; destruct_and?; try lia; try contradiction; try (exfalso; lia); tauto.
Qed.
Lemma month_length_month y m n : month_length y m n -> 1 <= m <= 12.
Proof. unfold month_length. intros; destruct_or?; destruct_and?; lia. Qed.
Lemma year_step y : before_year (y + 1) = before_year y + 365 + (if is_leap y then 1 else 0).
Proof.
  unfold before_year, is_leap. destruct (bool_decide_reflect (y mod 4 = 0)); destruct (bool_decide_reflect (y mod 100 = 0)); destruct (bool_decide_reflect (y mod 400 = 0)); cbn [andb orb negb]; lia.
Qed.
Lemma year_mono y y' : y <= y' -> before_year y + 365 * (y' - y) <= before_year y' + 0.
Proof. unfold before_year. intros H. lia. Qed.
Lemma next_day x y : day_after x y -> real_date x /\ real_date y /\ day_number y = day_number x + 1.
Proof.
  intros D. destruct D as [y m d n L B|y m n L B|y].
  - pose proof (month_length_month _ _ _ L) as M. apply month_length_size in L; [|exact M]. unfold real_date, day_number. subst n. lia.
  - pose proof (month_length_month _ _ _ L) as M. apply month_length_size in L; [|exact M]. unfold real_date, day_number. subst n. unfold month_size.
    assert (1 <= month_size (is_leap y) m /\ 1 <= month_size (is_leap y) (m + 1)) as (P & Q).
    { destruct (is_leap y); by_month M; (lia || (vm_compute; split; discriminate)). }
    unfold month_size in P, Q. lia.
  - assert (month_size (is_leap y) 12 = 31 /\ month_size (is_leap (y + 1)) 1 = 31) as (P & Q) by (destruct (is_leap y), (is_leap (y + 1)); split; reflexivity).
    assert (before_month (is_leap y) 12 = 334 + (if is_leap y then 1 else 0) /\ before_month (is_leap (y + 1)) 1 = 0) as (P' & Q') by (destruct (is_leap y), (is_leap (y + 1)); split; reflexivity).
    unfold real_date, day_number. rewrite year_step, P, Q, P', Q'. lia.
Qed.
Lemma month_range leap m : 1 <= m <= 12 -> 0 <= before_month leap m /\ 28 <= month_size leap m <= 31 /\ before_month leap (m + 1) <= 365 + (if leap then 1 else 0).
Proof. intros H. destruct leap; by_month H; vm_compute; repeat split; discriminate. Qed.
Lemma month_mono leap m m' : 1 <= m <= 12 -> 1 <= m' <= 12 -> m < m' -> before_month leap (m + 1) <= before_month leap m'.
Proof. intros H H' L. destruct leap; by_month H; by_month H'; try lia; vm_compute; discriminate. Qed.
Lemma day_number_inj x x' : real_date x -> real_date x' -> day_number x = day_number x' -> x = x'.
Proof.
  destruct x as ((y, m), d), x' as ((y', m'), d'). cbn [real_date day_number]. intros (M & D) (M' & D') E.
  pose proof (month_range (is_leap y) m M) as (A & B & Z). pose proof (month_range (is_leap y') m' M') as (A' & B' & Z').
  unfold month_size in *.
  assert (y = y') as <-.
  { pose proof (year_step y) as S. pose proof (year_step y') as S'. destruct (Z.lt_total y y') as [L|[L|L]]; [|exact L|].
    - pose proof (year_mono (y + 1) y'). lia.
    - pose proof (year_mono (y' + 1) y). lia. }
  assert (m = m') as <-.
  { destruct (Z.lt_total m m') as [L|[L|L]]; [|exact L|].
    - pose proof (month_mono (is_leap y) m m' M M' L). lia.
    - pose proof (month_mono (is_leap y) m' m M' M L). lia. }
  f_equal. lia.
Qed.

(** *** What Go computes *)
Definition month_day_check (leap : bool) (yd : Z) : bool :=
  let '(m, d) := month_day leap yd in bool_decide (1 <= m <= 12) && bool_decide (1 <= d <= month_size leap m) && bool_decide (before_month leap m + d - 1 = yd).
Lemma month_day_ok (leap : bool) yd m d : 0 <= yd < 365 + (if leap then 1 else 0) -> month_day leap yd = (m, d) ->
  1 <= m <= 12 /\ 1 <= d <= month_size leap m /\ before_month leap m + d - 1 = yd.
Proof.
  intros H E.
  assert (forallb (month_day_check leap) (map Z.of_nat (seq 0 (if leap then 366 else 365))) = true) as A by (destruct leap; vm_compute; reflexivity).
  rewrite List.forallb_forall in A. specialize (A yd). unfold month_day_check in A. rewrite E in A.
  rewrite !andb_true_iff, !bool_decide_eq_true in A. destruct A as ((A & B) & D); [|auto].
  apply in_map_iff. exists (Z.to_nat yd). split; [lia|]. apply in_seq. destruct leap; lia.
Qed.
Lemma year_day_ok D y yd : 0 <= D -> year_day D = (y, yd) ->
  0 <= yd < 365 + (if is_leap y then 1 else 0) /\ before_year y + yd = D + before_year (-292277022399).
Proof.
  intros H. unfold year_day. cbv zeta.
  set (a := D / 146097). set (d1 := D - 146097 * a). set (b0 := d1 / 36524). set (b := b0 - b0 / 4). set (d2 := d1 - 36524 * b).
  set (c := d2 / 1461). set (d3 := d2 - 1461 * c). set (e0 := d3 / 365). set (e := e0 - e0 / 4). set (d4 := d3 - 365 * e).
  intros [= <- <-].
  assert (0 <= d1 < 146097) as R1 by (subst d1 a; lia).
  assert (0 <= b <= 3 /\ 0 <= d2 /\ (b < 3 -> d2 < 36524) /\ (b = 3 -> d2 < 36525)) as R2 by (subst d2 b b0; lia).
  assert (0 <= c <= 24 /\ 0 <= d3 < 1461 /\ (b < 3 -> c = 24 -> d3 < 1460)) as R3 by (subst d3 c; lia).
  assert (0 <= e <= 3 /\ 0 <= d4 /\ (e < 3 -> d4 < 365) /\ (e = 3 -> d4 < 366) /\ (e = 3 -> b < 3 -> c = 24 -> d4 < 365)) as R4 by (subst d4 e e0; lia).
  assert (D = 146097 * a + 36524 * b + 1461 * c + 365 * e + d4) as S by (subst d4 d3 d2 d1; lia).
  clearbody a b c e d4. clear - R2 R3 R4 S H.
  assert (is_leap (400 * a + 100 * b + 4 * c + e + -292277022399) = bool_decide (e = 3) && (negb (bool_decide (c = 24)) || bool_decide (b = 3))) as L.
  { unfold is_leap. repeat case_bool_decide; cbn [andb orb negb]; try reflexivity; exfalso; lia. }
  rewrite L. split; [repeat case_bool_decide; cbn [andb orb negb]; lia|]. clear L. unfold before_year. lia.
Qed.

(** *** The calendar *)
Lemma day_has_next x : real_date x -> exists y, day_after x y.
Proof.
  destruct x as ((y, m), d). intros (M & D). destruct (decide (d < month_size (is_leap y) m)) as [L|L].
  - eexists. eapply da_day; [apply month_length_size; [exact M|reflexivity]|lia].
  - assert (d = month_size (is_leap y) m) as E by lia. destruct (decide (m < 12)) as [N|N].
    + eexists. eapply da_month; [apply month_length_size; [exact M|exact E]|exact N].
    + assert (m = 12) as -> by lia. exists (y + 1, 1, 1). rewrite E. replace (month_size (is_leap y) 12) with 31 by (destruct (is_leap y); reflexivity). constructor.
Qed.
Lemma day_has_previous x : real_date x -> exists y, day_after y x.
Proof.
  destruct x as ((y, m), d). intros (M & D). destruct (decide (1 < d)) as [L|L].
  - exists (y, m, d - 1). replace d with (d - 1 + 1) at 2 by lia. eapply da_day; [apply month_length_size; [exact M|reflexivity]|lia].
  - assert (d = 1) as -> by lia. destruct (decide (1 < m)) as [N|N].
    + exists (y, m - 1, month_size (is_leap y) (m - 1)). replace m with (m - 1 + 1) at 3 by lia.
      eapply da_month; [apply month_length_size; [lia|reflexivity]|lia].
    + assert (m = 1) as -> by lia. exists (y - 1, 12, 31). replace y with (y - 1 + 1) at 2 by lia. constructor.
Qed.
Lemma date_number n x : date_of_day n x <-> real_date x /\ day_number x = n + 719162.
Proof.
  split.
  - induction 1 as [|n x y D (R & IH) A|n x y D (R & IH) A]; [split; [vm_compute; split; split; discriminate|reflexivity]|..];
      apply next_day in A as (A1 & A2 & A3); split; auto; lia.
  - intros (R & E). destruct (decide (0 <= n)) as [P|P].
    + remember (Z.to_nat n) as k eqn:K. revert n x P K R E. induction k as [|k IH]; intros n x P K R E.
      * assert (n = 0) as -> by lia. assert (x = (1970, 1, 1)) as ->; [|constructor].
        apply day_number_inj; [exact R|vm_compute; split; split; discriminate|exact E].
      * destruct (day_has_previous x R) as (x' & A). destruct (next_day _ _ A) as (R' & _ & E').
        replace n with (n - 1 + 1) by lia. eapply dd_after; [|exact A]. apply IH; [lia|lia|exact R'|lia].
    + remember (Z.to_nat (- n)) as k eqn:K. revert n x P K R E. induction k as [|k IH]; intros n x P K R E; [lia|].
      destruct (day_has_next x R) as (x' & A). destruct (next_day _ _ A) as (_ & R' & E').
      destruct (decide (n = -1)) as [->|N].
      * change (-1) with (0 - 1). eapply dd_before; [|exact A]. assert (x' = (1970, 1, 1)) as ->; [|constructor].
        apply day_number_inj; [exact R'|vm_compute; split; split; discriminate|change (day_number (1970, 1, 1)) with 719162; lia].
      * replace n with (n + 1 - 1) by lia. eapply dd_before; [|exact A]. apply IH; [lia|lia|exact R'|lia].
Qed.
Lemma date_unique n x y : date_of_day n x -> date_of_day n y -> x = y.
Proof. rewrite !date_number. intros (A & B) (D & E). apply day_number_inj; auto; lia. Qed.
Lemma date_day n n' x : date_of_day n x -> date_of_day n' x -> n = n'.
Proof. rewrite !date_number. intros (A & B) (D & E). lia. Qed.
Lemma date_exists n : exists x, date_of_day n x.
Proof.
  destruct (decide (0 <= n)) as [P|P].
  - remember (Z.to_nat n) as k eqn:K. revert n P K. induction k as [|k IH]; intros n P K.
    + assert (n = 0) as -> by lia. eexists. constructor.
    + destruct (IH (n - 1)) as (x & D); [lia..|]. destruct (day_has_next x) as (y & A); [apply date_number in D; tauto|].
      exists y. replace n with (n - 1 + 1) by lia. eapply dd_after; eauto.
  - remember (Z.to_nat (- n)) as k eqn:K. revert n P K. induction k as [|k IH]; intros n P K; [lia|].
    assert (exists x, date_of_day (n + 1) x) as (x & D).
    { destruct (decide (n = -1)) as [->|N]; [eexists; constructor|apply IH; lia]. }
    destruct (day_has_previous x) as (y & A); [apply date_number in D; tauto|].
    exists y. replace n with (n + 1 - 1) by lia. eapply dd_before; eauto.
Qed.

(** *** The parts of a time *)
Lemma civil_ok off t c : in_range off t -> civil_of (abs_seconds off t) = c ->
  exists day, date_of_day day (cYear c, cMonth c, cDay c) /\ 0 <= cHour c < 24 /\ 0 <= cMin c < 60 /\ 0 <= cSec c < 60 /\
    86400 * day + 3600 * cHour c + 60 * cMin c + cSec c = t + off /\ 1 <= cMonth c <= 12 /\ 1 <= cDay c <= 31.
Proof.
  unfold in_range, abs_seconds, to_u, abs_epoch. intros R. rewrite Z.mod_small by lia.
  set (a := t + off + 9223372028715321600). unfold civil_of.
  destruct (year_day (a / 86400)) as (y, yd) eqn:EY. destruct (month_day (is_leap y) yd) as (m, d) eqn:EM. intros <-. cbn [cYear cMonth cDay cHour cMin cSec].
  apply year_day_ok in EY as (Y1 & Y2); [|lia]. apply month_day_ok in EM as (M1 & M2 & M3); [|exact Y1].
  exists (a / 86400 + before_year (-292277022399) - 719162).
  split; [apply date_number; split; [split; assumption|cbn [day_number]; lia]|].
  pose proof (month_range (is_leap y) m M1) as (_ & MR & _).
  assert (before_year (-292277022399) - 719162 = - (9223372028715321600 / 86400)) as K by (vm_compute; reflexivity).
  assert (9223372028715321600 = 86400 * (9223372028715321600 / 86400)) as K2 by (vm_compute; reflexivity).
  subst a. lia.
Qed.

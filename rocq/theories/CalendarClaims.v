(** Proofs about the texts of times. *)
From Verif Require Export CalendarFacts.
Local Open Scope Z_scope.

(** *** Decimal texts *)
Lemma big_dval b s : is_digit b -> b <> x30 -> Forall is_digit s -> 10 ^ zlen s <= dval (b :: s).
Proof.
  intros B N S. rewrite dval_cons. pose proof (dval_range s S). unfold is_digit in B.
  assert (bz b <> 48) by (intros E; apply N; apply (f_equal zb) in E; rewrite zb_bz in E; rewrite E; reflexivity).
  assert (1 <= bz b - 48) by lia. nia.
Qed.
Lemma filled_length_le w n t t' : filled w n t -> filled w n t' -> (length t <= length t')%nat.
Proof.
  intros ((A & B & V) & L & Z) ((A' & B' & V') & L' & Z'). destruct (decide (length t <= length t')%nat) as [|G]; [auto|exfalso].
  destruct t as [|b s]; [cbn in G; lia|]. specialize (Z ltac:(lia)). inversion B as [|? ? Hb Hs]; subst.
  pose proof (big_dval b s Hb ltac:(intros ->; apply Z; reflexivity) Hs). pose proof (dval_range t' B') as R.
  cbn [length] in G. assert (10 ^ zlen t' <= 10 ^ zlen s) by (apply Z.pow_le_mono_r; unfold zlen; lia). lia.
Qed.
Lemma filled_unique w n t t' : filled w n t -> filled w n t' -> t = t'.
Proof.
  intros F F'. pose proof (filled_length_le _ _ _ _ F F'). pose proof (filled_length_le _ _ _ _ F' F).
  destruct F as ((_ & B & V) & _), F' as ((_ & B' & V') & _). apply dval_inj; auto; lia || congruence.
Qed.
Lemma filled_exact w n t : filled w n t -> n < 10 ^ Z.of_nat w -> length t = w.
Proof.
  intros ((A & B & V) & L & Z) N. destruct (decide (w < length t)%nat) as [G|G]; [exfalso|lia].
  destruct t as [|b s]; [cbn in G; lia|]. specialize (Z G). inversion B as [|? ? Hb Hs]; subst.
  pose proof (big_dval b s Hb ltac:(intros ->; apply Z; reflexivity) Hs).
  assert (10 ^ Z.of_nat w <= 10 ^ zlen s) by (apply Z.pow_le_mono_r; unfold zlen; cbn [length] in G; lia). lia.
Qed.
Lemma pad0_filled w z : 0 <= z -> (0 < w)%nat -> filled w z (pad0 w (show z)).
Proof.
  intros Z W. destruct (show_natural z Z) as (A & B & V & H). unfold pad0. destruct (dval_zeros (w - length (show z))) as (Z1 & Z2).
  split; [split; [|split]|split].
  - intros E. apply app_eq_nil in E as (_ & E). auto.
  - apply Forall_app; auto.
  - rewrite dval_app, Z1. lia.
  - rewrite app_length, replicate_length. lia.
  - rewrite app_length, replicate_length. intros G. assert (w - length (show z) = 0)%nat as -> by lia. cbn [replicate app].
    intros E. apply H in E. rewrite E in G. cbn in G. lia.
Qed.
Lemma pad0_day z : 1 <= z -> filled 1 z (pad0 0 (show z)).
Proof.
  intros Z. destruct (show_natural z ltac:(lia)) as (A & B & V & H). unfold pad0. cbn [Nat.sub replicate app].
  split; [split; auto|]. split; [destruct (show z); [contradiction|cbn; lia]|]. intros G E. apply H in E. rewrite E in G. cbn in G. lia.
Qed.
Lemma int_filled w z : 0 <= z -> (0 < w)%nat -> filled w z (append_int w z).
Proof. intros Z W. unfold append_int. rewrite decide_False by lia. apply pad0_filled; auto. Qed.
Lemma int_year y : year_text y (append_int 4 y).
Proof.
  unfold append_int, year_text. destruct (decide (y < 0)) as [N|N].
  - right. split; [exact N|]. eexists. split; [reflexivity|]. apply pad0_filled; lia.
  - left. split; [lia|]. apply pad0_filled; lia.
Qed.

(** *** What is shown *)
Lemma parts_of off t c (dw : nat) : in_range off t -> civil_of (abs_seconds off t) = c -> dw = 1%nat \/ dw = 2%nat ->
  shown_parts off t (append_int 4 (cYear c)) (append_int 2 (cMonth c)) (append_int (if decide (dw = 1%nat) then 0 else 2) (cDay c))
    (append_int 2 (cHour c)) (append_int 2 (cMin c)) (append_int 2 (cSec c)) dw.
Proof.
  intros R E W. destruct (civil_ok off t c R E) as (day & D & H & M & S & T & Mo & Da).
  exists day, (cYear c), (cMonth c), (cDay c), (cHour c), (cMin c), (cSec c). split_and!; auto; try lia; try (apply int_filled; lia); [apply int_year|].
  destruct W as [-> | ->].
  - rewrite decide_True by reflexivity. unfold append_int. rewrite decide_False by lia. apply pad0_day. lia.
  - rewrite decide_False by lia. apply int_filled; lia.
Qed.
Lemma year_unique y t t' : year_text y t -> year_text y t' -> t = t'.
Proof.
  intros [(A & F)|(A & u & -> & F)] [(A' & F')|(A' & u' & -> & F')]; try lia; [|f_equal]; eapply filled_unique; eauto.
Qed.
Lemma clock_unique day h n s day' h' n' s' : 0 <= h < 24 -> 0 <= n < 60 -> 0 <= s < 60 -> 0 <= h' < 24 -> 0 <= n' < 60 -> 0 <= s' < 60 ->
  86400 * day + 3600 * h + 60 * n + s = 86400 * day' + 3600 * h' + 60 * n' + s' -> day = day' /\ h = h' /\ n = n' /\ s = s'.
Proof. intros. lia. Qed.
Lemma parts_unique off t dw ty tm td th tn ts ty' tm' td' th' tn' ts' : shown_parts off t ty tm td th tn ts dw -> shown_parts off t ty' tm' td' th' tn' ts' dw ->
  ty = ty' /\ tm = tm' /\ td = td' /\ th = th' /\ tn = tn' /\ ts = ts'.
Proof.
  intros (day & y & m & d & h & n & s & D & H & N & S & T & F1 & F2 & F3 & F4 & F5 & F6) (day' & y' & m' & d' & h' & n' & s' & D' & H' & N' & S' & T' & G1 & G2 & G3 & G4 & G5 & G6).
  rewrite <- T in T'. symmetry in T'. apply clock_unique in T' as (-> & -> & -> & ->); auto. pose proof (date_unique _ _ _ D D') as [= -> -> ->].
  split_and!; (eapply year_unique; eassumption) || (eapply filled_unique; eassumption).
Qed.
Lemma minute_shown loc t x : in_range (snd (loc t)) t -> minute_text loc t = x <-> shows_minute (zone_text (loc t)) (snd (loc t)) t x.
Proof.
  intros R. assert (shows_minute (zone_text (loc t)) (snd (loc t)) t (minute_text loc t)) as S.
  { do 6 eexists. split; [exact (parts_of _ _ _ 1 R eq_refl ltac:(auto))|]. unfold minute_text, format_time, to_minutes. cbn [map concat put_piece].
    rewrite app_nil_r. reflexivity. }
  split; [intros <-; exact S|]. destruct S as (ty & tm & td & th & tn & ts & P & ->). intros (ty' & tm' & td' & th' & tn' & ts' & P' & ->).
  destruct (parts_unique _ _ _ _ _ _ _ _ _ _ _ _ _ _ _ P P') as (-> & -> & -> & -> & -> & ->). reflexivity.
Qed.
Lemma second_shown loc t x : in_range (snd (loc t)) t -> second_text loc t = x <-> shows_second (zone_text (loc t)) (snd (loc t)) t x.
Proof.
  intros R. assert (shows_second (zone_text (loc t)) (snd (loc t)) t (second_text loc t)) as S.
  { do 6 eexists. split; [exact (parts_of _ _ _ 2 R eq_refl ltac:(auto))|]. unfold second_text, format_time, to_seconds. cbn [map concat put_piece].
    rewrite app_nil_r. reflexivity. }
  split; [intros <-; exact S|]. destruct S as (ty & tm & td & th & tn & ts & P & ->). intros (ty' & tm' & td' & th' & tn' & ts' & P' & ->).
  destruct (parts_unique _ _ _ _ _ _ _ _ _ _ _ _ _ _ _ P P') as (-> & -> & -> & -> & -> & ->). reflexivity.
Qed.

(** *** Reading it back *)
Lemma split_run a a' c c' r r' : Forall is_digit a -> Forall is_digit a' -> ~ is_digit c -> ~ is_digit c' -> a ++ c :: r = a' ++ c' :: r' -> a = a' /\ c = c' /\ r = r'.
Proof.
  intros A. revert a'. induction A as [|b a B A IH]; intros a' A' N N' E; destruct A' as [|b' a' B' A']; cbn [app] in E; injection E as E1 E2; subst; auto; try contradiction.
  destruct (IH a' A' N N' E2) as (-> & -> & ->). auto.
Qed.
Lemma no_digit_dash : ~ is_digit x2d. Proof. unfold is_digit. vm_compute. intros (A & _). apply A. reflexivity. Qed.
Lemma no_digit_space : ~ is_digit x20. Proof. unfold is_digit. vm_compute. intros (A & _). apply A. reflexivity. Qed.
Lemma no_digit_colon : ~ is_digit x3a. Proof. unfold is_digit. vm_compute. intros (_ & A). apply A. reflexivity. Qed.
Lemma filled_digits w n t : filled w n t -> Forall is_digit t. Proof. intros ((_ & F & _) & _). exact F. Qed.
Lemma filled_value w n t n' : filled w n t -> filled w n' t -> n = n'. Proof. intros ((_ & _ & A) & _) ((_ & _ & B) & _). congruence. Qed.
Lemma split_year y y' t t' r r' : year_text y t -> year_text y' t' -> t ++ x2d :: r = t' ++ x2d :: r' -> y = y' /\ r = r'.
Proof.
  intros [(A & F)|(A & u & -> & F)] [(A' & F')|(A' & u' & -> & F')] E.
  - destruct (split_run _ _ _ _ _ _ (filled_digits _ _ _ F) (filled_digits _ _ _ F') no_digit_dash no_digit_dash E) as (-> & _ & ->).
    split; [eapply filled_value; eauto|reflexivity].
  - exfalso. destruct F as ((Nn & D & _) & _). destruct t as [|b t]; [contradiction|]. injection E as -> _. inversion D; subst. apply no_digit_dash; auto.
  - exfalso. destruct F' as ((Nn & D & _) & _). destruct t' as [|b t']; [contradiction|]. injection E as <- _. inversion D; subst. apply no_digit_dash; auto.
  - injection E as E. destruct (split_run _ _ _ _ _ _ (filled_digits _ _ _ F) (filled_digits _ _ _ F') no_digit_dash no_digit_dash E) as (-> & _ & ->).
    pose proof (filled_value _ _ _ _ F F'). split; [lia|reflexivity].
Qed.
Lemma split_field w w' n n' t t' c r r' : filled w n t -> filled w' n' t' -> ~ is_digit c -> t ++ c :: r = t' ++ c :: r' -> n = n' /\ r = r'.
Proof.
  intros F F' N E. destruct (split_run _ _ _ _ _ _ (filled_digits _ _ _ F) (filled_digits _ _ _ F') N N E) as (-> & _ & ->).
  destruct F as ((_ & _ & A) & _), F' as ((_ & _ & B) & _). split; congruence.
Qed.
Lemma second_read zone off t zone' off' t' x : shows_second zone off t x -> shows_second zone' off' t' x -> zone = zone' /\ t + off = t' + off'.
Proof.
  intros (ty & tm & td & th & tn & ts & (day & y & m & d & h & n & s & D & H & N & S & T & F1 & F2 & F3 & F4 & F5 & F6) & ->)
    (ty' & tm' & td' & th' & tn' & ts' & (day' & y' & m' & d' & h' & n' & s' & D' & H' & N' & S' & T' & G1 & G2 & G3 & G4 & G5 & G6) & E).
  destruct (split_year _ _ _ _ _ _ F1 G1 E) as (-> & E1). destruct (split_field _ _ _ _ _ _ _ _ _ F2 G2 no_digit_dash E1) as (-> & E2).
  destruct (split_field _ _ _ _ _ _ _ _ _ F3 G3 no_digit_space E2) as (-> & E3). destruct (split_field _ _ _ _ _ _ _ _ _ F4 G4 no_digit_colon E3) as (-> & E4).
  destruct (split_field _ _ _ _ _ _ _ _ _ F5 G5 no_digit_colon E4) as (-> & E5). destruct (split_field _ _ _ _ _ _ _ _ _ F6 G6 no_digit_space E5) as (-> & E6).
  split; [exact E6|]. pose proof (date_day _ _ _ D D'). lia.
Qed.
Lemma minute_read zone off t zone' off' t' x : shows_minute zone off t x -> shows_minute zone' off' t' x -> zone = zone' /\ (t + off) / 60 = (t' + off') / 60.
Proof.
  intros (ty & tm & td & th & tn & ts & (day & y & m & d & h & n & s & D & H & N & S & T & F1 & F2 & F3 & F4 & F5 & F6) & ->)
    (ty' & tm' & td' & th' & tn' & ts' & (day' & y' & m' & d' & h' & n' & s' & D' & H' & N' & S' & T' & G1 & G2 & G3 & G4 & G5 & G6) & E).
  destruct (split_year _ _ _ _ _ _ F1 G1 E) as (-> & E1). destruct (split_field _ _ _ _ _ _ _ _ _ F2 G2 no_digit_dash E1) as (-> & E2).
  destruct (split_field _ _ _ _ _ _ _ _ _ F3 G3 no_digit_space E2) as (-> & E3). destruct (split_field _ _ _ _ _ _ _ _ _ F4 G4 no_digit_colon E3) as (-> & E4).
  destruct (split_field _ _ _ _ _ _ _ _ _ F5 G5 no_digit_space E4) as (-> & E5).
  split; [exact E5|]. pose proof (date_day _ _ _ D D'). lia.
Qed.
Lemma minute_same zone off t off' t' x x' : shows_minute zone off t x -> shows_minute zone off' t' x' -> (t + off) / 60 = (t' + off') / 60 -> x = x'.
Proof.
  intros (ty & tm & td & th & tn & ts & (day & y & m & d & h & n & s & D & H & N & S & T & F1 & F2 & F3 & F4 & F5 & F6) & ->)
    (ty' & tm' & td' & th' & tn' & ts' & (day' & y' & m' & d' & h' & n' & s' & D' & H' & N' & S' & T' & G1 & G2 & G3 & G4 & G5 & G6) & ->) E.
  assert (day = day' /\ h = h' /\ n = n') as (-> & -> & ->) by lia. pose proof (date_unique _ _ _ D D') as [= -> -> ->].
  rewrite (year_unique _ _ _ F1 G1), (filled_unique _ _ _ _ F2 G2), (filled_unique _ _ _ _ F3 G3), (filled_unique _ _ _ _ F4 G4), (filled_unique _ _ _ _ F5 G5). reflexivity.
Qed.

(** *** Order *)
Lemma lt_digits a b r r' : Forall is_digit a -> Forall is_digit b -> length a = length b -> dval a < dval b -> str_lt (a ++ r) (b ++ r').
Proof.
  intros A. revert b. induction A as [|x a X A IH]; intros b B L V; destruct B as [|y b Y B]; cbn [length] in L; try lia.
  cbn [app]. rewrite !dval_cons in V. assert (zlen a = zlen b) as Z by (unfold zlen; lia). rewrite Z in V.
  destruct (Z.lt_total (bz x) (bz y)) as [E|[E|E]].
  - apply sl_first. exact E.
  - apply (f_equal zb) in E. rewrite !zb_bz in E. subst y. apply sl_rest. apply IH; auto; lia.
  - exfalso. pose proof (dval_range a A). pose proof (dval_range b B). rewrite <- Z in *. assert (1 <= bz x - bz y) by lia. nia.
Qed.
Lemma lt_same a r r' : str_lt r r' -> str_lt (a ++ r) (a ++ r').
Proof. intros H. induction a as [|x a IH]; [exact H|]. cbn [app]. apply sl_rest. exact IH. Qed.
Lemma field_lt w n n' t t' r r' : filled w n t -> filled w n' t' -> n < 10 ^ Z.of_nat w -> n' < 10 ^ Z.of_nat w -> n < n' \/ n = n' /\ str_lt r r' -> str_lt (t ++ r) (t' ++ r').
Proof.
  intros F F' N N' [L|(-> & L)].
  - pose proof (filled_exact _ _ _ F N). pose proof (filled_exact _ _ _ F' N'). destruct F as ((_ & A & V) & _), F' as ((_ & A' & V') & _). apply lt_digits; auto; lia.
  - rewrite (filled_unique _ _ _ _ F F'). apply lt_same. exact L.
Qed.
Lemma date_order day day' y m d y' m' d' : date_of_day day (y, m, d) -> date_of_day day' (y', m', d') -> day <= day' ->
  y < y' \/ y = y' /\ (m < m' \/ m = m' /\ (d < d' \/ d = d' /\ day = day')).
Proof.
  intros D D' L. pose proof D as E. pose proof D' as E'. apply date_number in E as ((M & R) & E), E' as ((M' & R') & E'). cbn [day_number] in E, E'.
  pose proof (month_range (is_leap y) m M) as (A & B & Z). pose proof (month_range (is_leap y') m' M') as (A' & B' & Z'). unfold month_size in *.
  destruct (Z.lt_total y y') as [K|[K|K]]; [auto| |].
  - subst y'. right. split; [reflexivity|]. destruct (Z.lt_total m m') as [K|[K|K]]; [auto| |].
    + subst m'. right. split; [reflexivity|]. lia.
    + exfalso. pose proof (month_mono (is_leap y) m' m M' M K). lia.
  - exfalso. pose proof (year_step y') as S. pose proof (year_mono (y' + 1) y). lia.
Qed.
Lemma year_bounds day y m d : date_of_day day (y, m, d) -> -719528 <= day < 2932897 -> 0 <= y <= 9999.
Proof.
  intros D H. apply date_number in D as ((M & R) & E). cbn [day_number] in E. pose proof (month_range (is_leap y) m M) as (A & B & Z). unfold month_size in *.
  pose proof (year_step y) as S. split.
  - destruct (decide (0 <= y)) as [|N]; [auto|]. pose proof (year_mono (y + 1) 0 ltac:(lia)) as Y. change (before_year 0) with (-366) in Y. lia.
  - destruct (decide (y <= 9999)) as [|N]; [auto|]. pose proof (year_mono 10000 y ltac:(lia)) as Y. change (before_year 10000) with 3652059 in Y. lia.
Qed.
Lemma dom_bounds day y m d : date_of_day day (y, m, d) -> 1 <= m <= 12 /\ 1 <= d <= 31.
Proof. intros D. apply date_number in D as ((M & R) & E). pose proof (month_range (is_leap y) m M). lia. Qed.
Lemma second_order zone off t t' x x' : shows_second zone off t x -> shows_second zone off t' x' -> -62167219200 <= t + off -> t < t' -> t' + off < 253402300800 -> str_lt x x'.
Proof.
  intros (ty & tm & td & th & tn & ts & (day & y & m & d & h & n & s & D & H & N & S & T & F1 & F2 & F3 & F4 & F5 & F6) & ->)
    (ty' & tm' & td' & th' & tn' & ts' & (day' & y' & m' & d' & h' & n' & s' & D' & H' & N' & S' & T' & G1 & G2 & G3 & G4 & G5 & G6) & ->) L1 L L2.
  pose proof (year_bounds _ _ _ _ D ltac:(lia)) as Y. pose proof (year_bounds _ _ _ _ D' ltac:(lia)) as Y'.
  pose proof (dom_bounds _ _ _ _ D) as B. pose proof (dom_bounds _ _ _ _ D') as B'.
  pose proof (date_order _ _ _ _ _ _ _ _ D D' ltac:(lia)) as O.
  destruct F1 as [(_ & F1)|(? & _)]; [|lia]. destruct G1 as [(_ & G1)|(? & _)]; [|lia].
  apply (field_lt 4 y y'); auto; [change (10 ^ Z.of_nat 4) with 10000; lia..|]. destruct O as [O|(-> & O)]; [left; exact O|right; split; [reflexivity|]].
  apply lt_same. apply (field_lt 2 m m'); auto; [change (10 ^ Z.of_nat 2) with 100; lia..|]. destruct O as [O|(-> & O)]; [left; exact O|right; split; [reflexivity|]].
  apply lt_same. apply (field_lt 2 d d'); auto; [change (10 ^ Z.of_nat 2) with 100; lia..|]. destruct O as [O|(-> & O)]; [left; exact O|right; split; [reflexivity|]].
  subst day'. apply lt_same. apply (field_lt 2 h h'); auto; [change (10 ^ Z.of_nat 2) with 100; lia..|].
  assert (h < h' \/ h = h' /\ (n < n' \/ n = n' /\ s < s')) as [O|(-> & O)] by lia; [left; exact O|right; split; [reflexivity|]].
  apply lt_same. apply (field_lt 2 n n'); auto; [change (10 ^ Z.of_nat 2) with 100; lia..|]. destruct O as [O|(-> & O)]; [left; exact O|right; split; [reflexivity|]].
  apply lt_same. apply (field_lt 2 s s'); auto; [change (10 ^ Z.of_nat 2) with 100; lia..].
Qed.

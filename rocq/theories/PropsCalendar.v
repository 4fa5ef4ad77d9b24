(** Property C88: the times the commands show. *)
From Verif Require Export CalendarClaims PropsJournal.
From Verif Require SpecShow.
Local Open Scope Z_scope.

(** C88. Every day has exactly one date, and every date is of at most one day. *)
Theorem C88_calendar :
  forall day, exists x, date_of_day day x /\ (forall x', date_of_day day x' -> x' = x) /\ (forall day', date_of_day day' x -> day' = day).
Proof.
  intros day. destruct (date_exists day) as (x & D). exists x. split; [exact D|]. split; intros.
  - eapply date_unique; eassumption.
  - eapply date_day; eassumption.
Qed.
Print Assumptions C88_calendar.

(** What is shown, exactly. *)
Theorem C88_minute :
  forall loc t x,
    in_range (snd (loc t)) t -> minute_text loc t = x <-> shows_minute (zone_text (loc t)) (snd (loc t)) t x.
Proof. exact minute_shown. Qed.
Print Assumptions C88_minute.

Theorem C88_second :
  forall loc t x,
    in_range (snd (loc t)) t -> second_text loc t = x <-> shows_second (zone_text (loc t)) (snd (loc t)) t x.
Proof. exact second_shown. Qed.
Print Assumptions C88_second.

(** Of the 584 thousand million years of times a file can hold, all but the first 258 or so are in range. *)
Theorem C88_range :
  forall off t,
    - 2 ^ 63 + 2 ^ 33 <= t < 2 ^ 63 -> - 86400 <= off <= 86400 -> in_range off t.
Proof. intros off t T O. unfold in_range. lia. Qed.
Print Assumptions C88_range.

(** In those 258 years the count runs over, and the year is out by 584 thousand million. *)
Theorem C88_any_time_refuted :
  exists t,
    - 2 ^ 63 <= t < 2 ^ 63 /\ ~ shows_second (bs "UTC") 0 t (second_text (fun _ => (bs "UTC", 0)) t).
Proof.
  exists (- 2 ^ 63). split; [lia|].
  replace (second_text (fun _ => (bs "UTC", 0)) (- 2 ^ 63)) with (bs "292277026596-12-04 15:30:08 UTC" : bytes) by (vm_compute; reflexivity).
  intros S. pose proof (proj1 (C88_second (fun _ => (bs "UTC", 0)) (2 ^ 64 - 2 ^ 63 - 1) _ ltac:(unfold in_range; cbn [snd]; lia)) eq_refl) as S'.
  replace (second_text (fun _ => (bs "UTC", 0)) (2 ^ 64 - 2 ^ 63 - 1)) with (bs "292277026596-12-04 15:30:07 UTC" : bytes) in S' by (vm_compute; reflexivity).
  destruct S as (ty & tm & td & th & tn & ts & (day & y & m & d & h & n & s & D & H & N & Sx & T & F1 & F2 & F3 & F4 & F5 & F6) & E).
  assert (292277026596 = y) as <-.
  { refine (proj1 (split_year 292277026596 y (bs "292277026596") ty (bs "12-04 15:30:08 UTC") _ _ F1 E)).
    left. split; [lia|]. split; [split; [discriminate|]|]; [split; [|vm_compute; reflexivity]|].
    - repeat constructor; vm_compute; discriminate.
    - split; [vm_compute; repeat constructor|intros _; discriminate]. }
  apply date_number in D as ((M & R) & E'). cbn [day_number] in E'. pose proof (month_range (is_leap 292277026596) m M) as (A & _).
  pose proof (year_mono 1970 292277026596 ltac:(lia)) as Y. change (before_year 1970) with 719162 in Y. lia.
Qed.
Print Assumptions C88_any_time_refuted.

(** The reference time of Go's layouts is shown as the layout itself. *)
Theorem C88_layouts :
  let mst : Calendar.location := fun _ => (bs "MST", -25200) in
  minute_text mst 1136239445 = bs "2006-01-2 15:04 MST" /\ second_text mst 1136239445 = bs "2006-01-02 15:04:05 MST".
Proof. vm_compute. split; reflexivity. Qed.
Print Assumptions C88_layouts.

(** What can be read from a text: the zone's name, and the time on its clocks. *)
Theorem C88_read_second :
  forall zone off t zone' off' t' x,
    shows_second zone off t x -> shows_second zone' off' t' x -> zone = zone' /\ t + off = t' + off'.
Proof. exact second_read. Qed.
Print Assumptions C88_read_second.

Theorem C88_read_minute :
  forall zone off t zone' off' t' x x',
    shows_minute zone off t x -> shows_minute zone' off' t' x' -> x = x' <-> zone = zone' /\ (t + off) / 60 = (t' + off') / 60.
Proof.
  intros zone off t zone' off' t' x x' S S'. split; [intros <-; eapply minute_read; eassumption|].
  intros (<- & E). eapply minute_same; eassumption.
Qed.
Print Assumptions C88_read_minute.

(** So secretscli shows different times differently where a name stands for one offset. *)
Theorem C88_distinct :
  forall loc t t',
    (forall t t', zone_text (loc t) = zone_text (loc t') -> snd (loc t) = snd (loc t')) ->
    in_range (snd (loc t)) t -> in_range (snd (loc t')) t' -> second_text loc t = second_text loc t' -> t = t'.
Proof.
  intros loc t t' Z R R' E. pose proof (proj1 (C88_second loc t _ R) eq_refl) as S. pose proof (proj1 (C88_second loc t' _ R') eq_refl) as S'.
  rewrite <- E in S'. destruct (second_read _ _ _ _ _ _ _ S S') as (N & T). apply Z in N. lia.
Qed.
Print Assumptions C88_distinct.

(** It does not where it stands for two: as in London until 1971. *)
Theorem C88_distinct_refuted :
  exists (loc : Calendar.location) t t',
    in_range (snd (loc t)) t /\ in_range (snd (loc t')) t' /\ second_text loc t = second_text loc t' /\ t <> t'.
Proof.
  exists (fun t => (bs "BST", if decide (t < 0) then 7200 else 3600)), (-1800), 1800.
  split_and!; [vm_compute; split; [discriminate|reflexivity]..|vm_compute; reflexivity|lia].
Qed.
Print Assumptions C88_distinct_refuted.

(** From year 0 to 9999, in one zone, secretscli's texts are in the order of the times. *)
Theorem C88_order :
  forall zone off t t' x x',
    shows_second zone off t x -> shows_second zone off t' x' -> -62167219200 <= t + off -> t < t' -> t' + off < 253402300800 -> SpecShow.str_lt x x'.
Proof. exact second_order. Qed.
Print Assumptions C88_order.

(** Those of journal, secrets and fcrypt are not: the day has no leading zero. *)
Theorem C88_order_minute_refuted :
  exists t t' x x',
    0 < t < t' /\ shows_minute (bs "UTC") 0 t x /\ shows_minute (bs "UTC") 0 t' x' /\ SpecShow.str_lt x' x.
Proof.
  exists (8 * 86400), (9 * 86400), (bs "1970-01-9 00:00 UTC"), (bs "1970-01-10 00:00 UTC"). split; [lia|]. split; [|split].
  - apply (C88_minute (fun _ => (bs "UTC", 0))); [unfold in_range; cbn; lia|vm_compute; reflexivity].
  - apply (C88_minute (fun _ => (bs "UTC", 0))); [unfold in_range; cbn; lia|vm_compute; reflexivity].
  - do 8 apply SpecShow.sl_rest. apply SpecShow.sl_first. vm_compute. reflexivity.
Qed.
Print Assumptions C88_order_minute_refuted.

(** And where clocks are put back, a later time is shown as an earlier one. *)
Theorem C88_order_zones_refuted :
  exists (loc : Calendar.location) t t',
    0 < t < t' /\ in_range (snd (loc t)) t /\ in_range (snd (loc t')) t' /\ SpecShow.str_lt (second_text loc t') (second_text loc t).
Proof.
  exists (fun t => if decide (t < 1792890000) then (bs "CEST", 7200) else (bs "CET", 3600)), 1792889999, 1792890000.
  split; [lia|]. split; [vm_compute; split; [discriminate|reflexivity]|]. split; [vm_compute; split; [discriminate|reflexivity]|].
  replace (second_text _ 1792890000) with (bs "2026-10-25 02:00:00 CET" : bytes) by (vm_compute; reflexivity).
  replace (second_text _ 1792889999) with (bs "2026-10-25 02:59:59 CEST" : bytes) by (vm_compute; reflexivity).
  do 14 apply SpecShow.sl_rest. apply SpecShow.sl_first. vm_compute. reflexivity.
Qed.
Print Assumptions C88_order_zones_refuted.

(** journal's listing. *)
Theorem C88_journal_list :
  forall (C : Crypto) (L : CryptoLaws) (loc : Calendar.location) m path c w w',
    jFmt c = minute_text loc -> (forall t, - 2 ^ 63 + 2 ^ 33 <= t < 2 ^ 63 -> - 86400 <= snd (loc t) <= 86400) ->
    permutes (jPerm c) -> plain_path path -> good_clock w -> journal_run m JList path c w = Done tt w' ->
    exists pass s es ls lines, head (wPw w) = Some (Some pass) /\ opens (wFs w) path m pass s /\ entries s es /\ lists es ls /\
      Forall2 (fun l line => - 2 ^ 63 + 2 ^ 33 <= fst l < 2 ^ 63 ->
        exists x, shows_minute (zone_text (loc (fst l))) (snd (loc (fst l))) (fst l) x /\ line = [x09] ++ x ++ [x09; x09] ++ snd l ++ [x0a]) ls lines /\
      wOut w' = wOut w ++ bs "Entries:" ++ [x0a] ++ concat lines /\ wFs w' = wFs w.
Proof.
  intros C L loc m path c w w' F O P Pp G H. destruct (C60_list C L m path c w w' P Pp G H) as (pass & s & es & ls & A & B & D & E & W & Fs).
  exists pass, s, es, ls, (map (fun l => [x09] ++ jFmt c (fst l) ++ [x09; x09] ++ snd l ++ [x0a]) ls). split_and!; auto.
  clear E W H. induction ls as [|l ls IH]; constructor; [|exact IH]. intros R. exists (minute_text loc (fst l)). split; [|rewrite F; reflexivity].
  apply C88_minute; [|reflexivity]. apply C88_range; auto.
Qed.
Print Assumptions C88_journal_list.

Example C88_nonvacuous :
  date_of_day 0 (1970, 1, 1) /\ date_of_day (-1) (1969, 12, 31) /\
  (let utc : Calendar.location := fun _ => (bs "UTC", 0) in
   map (second_text utc) [951782400; 951868800; 4107542399; 4107542400; -62135596801; 253402300800; -68000000000] =
     map bs ["2000-02-29 00:00:00 UTC"; "2000-03-01 00:00:00 UTC"; "2100-02-28 23:59:59 UTC"; "2100-03-01 00:00:00 UTC"; "0000-12-31 23:59:59 UTC"; "10000-01-01 00:00:00 UTC"; "-0185-03-02 23:06:40 UTC"]%string) /\
  minute_text (fun _ => ([], -12600)) 0 = bs "1969-12-31 20:30 -0330" /\
  (* journal: one line for each *)
  match journal_run (C:=toy) 1 JList (bs "f") (JCfg [] (fun _ => None) (minute_text (fun _ => (bs "CET", 3600))) (fun l => l)) (xj_world []) with
  | Done _ w => wOut w | _ => []
  end = bs "Entries:" ++ [x0a; x09] ++ bs "1970-01-1 01:00 CET" ++ [x09; x09] ++ bs "b" ++ [x0a; x09] ++ bs "1970-01-1 01:00 CET" ++ [x09; x09] ++ bs "b" ++ [x0a].
Proof.
  split; [constructor|]. split; [change (-1) with (0 - 1); eapply dd_before; constructor|]. vm_compute. split_and!; reflexivity.
Qed.

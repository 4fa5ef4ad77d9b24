(** C75, continued: durations with a decimal point. *)
From Verif Require Import FractionFacts.
Local Open Scope Z_scope.

(** A number with up to 18 digits after the point, and its unit. *)
Theorem C75_fraction :
  forall ds fs u n (neg : bool),
    (ds <> [] \/ fs <> []) -> Forall numeral ds -> Forall numeral fs -> (length fs <= 18)%nat -> (u, n) ∈ duration_units ->
    0 <= fraction fs n -> number ds * n + fraction fs n <= 2 ^ 63 - (if neg then 0 else 1) ->
    parse_duration ((if neg then bs "-" else []) ++ ds ++ x2e :: fs ++ u) =
      Some (if neg then - (number ds * n + fraction fs n) else number ds * n + fraction fs n).
Proof. exact fraction_ok. Qed.
Print Assumptions C75_fraction.

(** With more digits, the last ones are lost. *)
Theorem C75_fraction_long :
  forall ds fs lost u n (neg : bool),
    (ds <> [] \/ fs <> []) -> kept fs lost -> Forall numeral ds -> Forall numeral fs -> Forall numeral lost -> (length fs <= 22)%nat ->
    (u, n) ∈ duration_units ->
    0 <= fraction fs n -> number ds * n + fraction fs n <= 2 ^ 63 - (if neg then 0 else 1) ->
    parse_duration ((if neg then bs "-" else []) ++ ds ++ x2e :: fs ++ lost ++ u) =
      Some (if neg then - (number ds * n + fraction fs n) else number ds * n + fraction fs n).
Proof. exact fraction_kept. Qed.
Print Assumptions C75_fraction_long.

(** Tests of the standard library (time_test.go), with more digits than that too. *)
Theorem C75_fraction_vectors :
  parse_duration (bs "5.s") = Some 5000000000 /\ parse_duration (bs ".5s") = Some 500000000 /\
  parse_duration (bs "1.004s") = Some 1004000000 /\ parse_duration (bs "100.00100s") = Some 100001000000 /\
  parse_duration (bs "-.5s") = Some (-500000000) /\ parse_duration (bs "3.4ms") = Some 3400000 /\
  parse_duration (bs "0.3333333333333333333h") = Some 1200000000000 /\
  parse_duration (bs "0.100000000000000000000h") = Some 360000000000 /\
  parse_duration (bs "9223372036854775.807us") = Some (2 ^ 63 - 1) /\
  parse_duration (bs ".s") = None /\ parse_duration (bs "-.s") = None /\ parse_duration (bs "9223372036854775.808us") = None.
Proof. vm_compute. repeat split. Qed.
Print Assumptions C75_fraction_vectors.

(** That a fraction is cut to whole nanoseconds is false: it may be rounded up, and a
    time just under an hour is one. *)
Theorem C75_fraction_cut_refuted :
  parse_duration (bs "0.99999999999999999ns") = Some 1 /\ parse_duration (bs "0.99999999999999999h") = parse_duration (bs "1h").
Proof. vm_compute. repeat split. Qed.
Print Assumptions C75_fraction_cut_refuted.

Example C75_fraction_nonvacuous :
  fraction (bs "5") 1000000000 = 500000000 /\ fraction (bs "004") 1000000000 = 4000000 /\ fraction [] 1000 = 0 /\
  kept (bs "333333333333333333") [] /\ kept (bs "3333333333333333333") (bs "3333") /\
  (forall neg : bool, parse_duration ((if neg then bs "-" else []) ++ bs "1" ++ x2e :: bs "5" ++ bs "m") = Some (if neg then -90000000000 else 90000000000)).
Proof.
  split; [vm_compute; reflexivity|]. split; [vm_compute; reflexivity|]. split; [vm_compute; reflexivity|].
  split; [split; [vm_compute; discriminate|exact I]|]. split; [split; vm_compute; [discriminate|reflexivity]|].
  intros []; vm_compute; reflexivity.
Qed.

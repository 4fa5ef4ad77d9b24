(** Model of the two endless displays of cmd/otpc/otpc.go, as the events of a run that
    is cut off after some rounds of the loop. No proofs here. *)
From Verif Require Export CmdOtp.
Local Open Scope Z_scope.

(** What the process does: it reads the clock (Unix seconds), prints, or waits for
    [time.After]. *)
Inductive event := ENow (t : Z) | EPrint (text : bytes) | ESleep (seconds : Z).

Section WithTwofactor.
Context (F : twofactor).
(** The readings of the clock, in order. *)
Context (clk : nat -> Z).
Local Notation token := (otp (tfH F) (tfT F) (tfX F)).

(** [otp.OTP()]: a counter-based token moves on, the others read the clock; [i]
    readings were made before. *)
Definition ask (o : token) (i : nat) : list event * bytes * token * nat :=
  match o with
  | OH h => ([], fst (tfNext F h), OH (snd (tfNext F h)), i)
  | OT t => ([ENow (clk i)], tfCode F t (clk i), o, S i)
  | OOther x => ([ENow (clk i)], tfCodeX F x (clk i), o, S i)
  end.
(** [printTOTP], cmd/otpc/otpc.go:303-314: [n] rounds of its loop. *)
Fixpoint totp_rounds (n : nat) (o : token) (last : bytes) (i : nat) : list event :=
  match n with
  | O => []
  | S n =>
      let '(e1, c1, o, i) := ask o i in
      if decide (c1 = last) then e1 ++ ESleep 1 :: totp_rounds n o last i else
      let '(e2, c2, o, i) := ask o i in
      e1 ++ e2 ++ EPrint (c2 ++ [x0a]) :: ESleep 1 :: totp_rounds n o c2 i
  end.
Definition print_totp (n : nat) (o : token) : list event :=
  let '(e, c, o, i) := ask o 0 in
  e ++ EPrint (c ++ [x0a]) :: totp_rounds n o c i.

(** [Time.Second] in a zone [off] seconds east of Greenwich. *)
Context (off : Z).
Definition second (t : Z) : Z := (t + off) mod 60.
(** [printGTOTP], cmd/otpc/otpc.go:284-301: [n] readings in its loops. *)
Fixpoint gtotp_rounds (n : nat) (o : token) (i : nat) : list event :=
  match n with
  | O => []
  | S n =>
      let t := clk i in
      if decide (second t = 0 \/ second t = 30) then
        let '(e, c, o, i) := ask o (S i) in
        ENow t :: e ++ EPrint (c ++ [x0a]) :: ESleep 30 :: gtotp_rounds n o i
      else ENow t :: ESleep 1 :: gtotp_rounds n o (S i)
  end.
Definition print_gtotp (n : nat) (o : token) : list event :=
  let t := clk 0%nat in
  let '(e, c, o, i) := ask o 1 in
  ENow t :: e ++ EPrint (c ++ [x0a]) :: EPrint (bs "Updates in " ++ show (30 - second t mod 30) ++ bs " seconds." ++ [x0a]) :: gtotp_rounds n o i.

(** [showSecret], cmd/otpc/otpc.go:366-400, where it calls one of them. *)
Definition live (n : nat) (s : sstore) (c : ocfg) : option (list event) :=
  match recs s !! oarg 0 c with
  | Some (Some r) =>
      match tfFromUrl F (default [] (rSecret r)) with
      | Ret (Some (o, _)) =>
          match shown_kind F o r with
          | TOTP => Some (print_totp n o)
          | GoogleTOTP => Some (print_gtotp n o)
          | _ => None
          end
      | _ => None
      end
  | _ => None
  end.
End WithTwofactor.

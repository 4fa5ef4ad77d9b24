(** What somebody who watches the displays of otpc may rely on. *)
From Verif Require Export OtpShow SpecOtp.
Local Open Scope Z_scope.

(** The latest reading of the clock, and the text printed last. *)
Definition last_now (es : list event) : option Z := fold_left (fun r e => match e with ENow t => Some t | _ => r end) es None.
Definition last_text (es : list event) : option bytes := fold_left (fun r e => match e with EPrint l => Some l | _ => r end) es None.
(** The texts printed, in order. *)
Definition texts (es : list event) : list bytes := flat_map (fun e => match e with EPrint l => [l] | _ => [] end) es.
(** Every wait takes its time, and no step of the process is more than [late] seconds
    behind; [prev] is the reading before, [slept] what was waited since. *)
Fixpoint timed (late : Z) (prev : option Z) (slept : Z) (es : list event) : Prop :=
  match es with
  | [] => True
  | ENow t :: es => match prev with None => True | Some p => p + slept <= t <= p + slept + late end /\ timed late (Some t) 0 es
  | ESleep d :: es => timed late prev (slept + d) es
  | EPrint _ :: es => timed late prev slept es
  end.
Definition line (code : bytes) : bytes := code ++ [x0a].
(** The note about the next change. *)
Definition note (k : Z) : bytes := bs "Updates in " ++ show k ++ bs " seconds." ++ [x0a].
(** The code on display is [code]: it was printed, and nothing after it but notes. *)
Definition on_display (es : list event) (code : bytes) : Prop :=
  exists a b, es = a ++ EPrint (line code) :: b /\ forall l, EPrint l ∈ b -> exists k, l = note k.
(** The code changes every half minute. *)
Definition half_minutes (code : Z -> bytes) : Prop := forall t u, t / 30 = u / 30 -> code t = code u.
Section WithTwofactor.
Context (F : twofactor).
(** The code of a counter-based token after [n] others. *)
Definition nth_code (h : tfH F) (n : nat) : bytes := fst (tfNext F (Nat.iter n (fun h => snd (tfNext F h)) h)).
End WithTwofactor.

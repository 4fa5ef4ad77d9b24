(** Property C86: the endless displays of otpc. *)
From Verif Require Export OtpShowClaims AuthFacts PropsOtp.
Local Open Scope Z_scope.

(** C86. The endless displays of otpc. *)
Theorem C86_shown :
  forall (F : twofactor) (C : Crypto) (L : CryptoLaws) m path c w pass ps s label rest clk off n,
    plain_path path -> wPw w = Some pass :: ps -> opens (wFs w) path m pass s -> oArgs c = label :: rest ->
    otpc_run F m OShow path c w = Spin <-> is_Some (live F clk off n s c).
Proof. exact @live_run. Qed.
Print Assumptions C86_shown.

Theorem C86_which :
  forall (F : twofactor) clk off n s c es,
    live F clk off n s c = Some es <->
    exists r o l, slot s (oarg 0 c) = Some (Some r) /\ tfFromUrl F (default [] (rSecret r)) = Ret (Some (o, l)) /\
      (shown_kind F o r = TOTP /\ es = print_totp F clk n o \/ shown_kind F o r = GoogleTOTP /\ es = print_gtotp F clk off n o).
Proof. exact @live_is. Qed.
Print Assumptions C86_which.

(** Whenever printTOTP waits, it waits a second, and the code on the screen is that of
    its latest look at the clock. *)
Theorem C86_totp_current :
  forall (F : twofactor) clk (t : tfT F) n a d b,
    print_totp F clk n (OT t) = a ++ ESleep d :: b ->
    d = 1 /\ exists now, last_now a = Some now /\ last_text a = Some (line (tfCode F t now)).
Proof. exact @totp_current. Qed.
Print Assumptions C86_totp_current.

Theorem C86_totp_lines :
  forall (F : twofactor) clk (t : tfT F) n a l b,
    print_totp F clk n (OT t) = a ++ EPrint l :: b ->
    exists a' now, a = a' ++ [ENow now] /\ l = line (tfCode F t now) /\
      (a' = [] \/ exists a2 u x, a' = a2 ++ [ENow u] /\ last_text a2 = Some x /\ x <> line (tfCode F t u)).
Proof. exact @totp_lines. Qed.
Print Assumptions C86_totp_lines.

(** A counter-based token on that display: every other code is spent unseen, a new
    one is shown every second, and none of it is recorded. *)
Theorem C86_counter_refuted :
  forall (F : twofactor) clk n h,
    (forall j, nth_code F h (S j) <> nth_code F h j) ->
    print_totp F clk n (OH h) = EPrint (line (nth_code F h 0)) :: flat_map (fun j => [EPrint (line (nth_code F h (2 * j + 2))); ESleep 1]) (seq 0 n).
Proof. exact @counter_shown. Qed.
Print Assumptions C86_counter_refuted.

(** printGTOTP first shows the code, and how long it is valid. *)
Theorem C86_google_start :
  forall (F : twofactor) clk off n (t : tfT F),
    exists k rest, print_gtotp F clk off n (OT t) = [ENow (clk 0%nat); ENow (clk 1%nat); EPrint (line (tfCode F t (clk 1%nat))); EPrint (note k)] ++ rest /\
      1 <= k <= 30 /\ (clk 0%nat + k + off) mod 30 = 0 /\
      (off mod 30 = 0 -> (clk 0%nat + k) / 30 = clk 0%nat / 30 + 1 /\ forall j, 0 <= j < k -> (clk 0%nat + j) / 30 = clk 0%nat / 30).
Proof. exact @gtotp_starts. Qed.
Print Assumptions C86_google_start.

Theorem C86_google_lines :
  forall (F : twofactor) clk off (t : tfT F) n a l b,
    print_gtotp F clk off n (OT t) = a ++ EPrint l :: b -> (2 <= length (texts a))%nat ->
    exists a' u now b', a = a' ++ [ENow u; ENow now] /\ l = line (tfCode F t now) /\ ((u + off) mod 60 = 0 \/ (u + off) mod 60 = 30) /\ b = ESleep 30 :: b'.
Proof. exact @gtotp_lines. Qed.
Print Assumptions C86_google_lines.

Theorem C86_google_apart :
  forall (F : twofactor) clk off (t : tfT F) n late a x b y c,
    timed late None 0 (print_gtotp F clk off n (OT t)) -> (2 <= length (texts a))%nat -> print_gtotp F clk off n (OT t) = a ++ EPrint x :: b ++ EPrint y :: c ->
    exists v w, last_now a = Some v /\ last_now (a ++ EPrint x :: b) = Some w /\ x = line (tfCode F t v) /\ y = line (tfCode F t w) /\ v + 30 <= w.
Proof. exact @gtotp_apart. Qed.
Print Assumptions C86_google_apart.

(** Never late, it shows at every moment the code of that moment. *)
Theorem C86_google_fresh :
  forall (F : twofactor) clk off (t : tfT F) n,
    off mod 30 = 0 -> half_minutes (tfCode F t) -> timed 0 None 0 (print_gtotp F clk off n (OT t)) ->
    forall a d b, print_gtotp F clk off n (OT t) = a ++ ESleep d :: b ->
      exists now, last_now a = Some now /\ forall u, now <= u < now + d -> on_display a (tfCode F t u).
Proof. exact @gtotp_fresh. Qed.
Print Assumptions C86_google_fresh.

(** One second late at each look at the clock, it never shows another code. *)
Theorem C86_google_late_refuted :
  forall (F : twofactor) (t : tfT F),
    exists clk, (forall n, timed 1 None 0 (print_gtotp F clk 0 n (OT t)) /\ length (texts (print_gtotp F clk 0 n (OT t))) = 2%nat) /\
      forall z, exists n, exists now, last_now (print_gtotp F clk 0 n (OT t)) = Some now /\ z <= now.
Proof. exact @gtotp_stuck. Qed.
Print Assumptions C86_google_late_refuted.

(** The codes of RFC 6238 are such. *)
Theorem C86_rfc :
  forall (C : Crypto) (F : twofactor) (t : tfT F) key digits,
    (forall u, hotp key (u / 30) digits (tfCode F t u)) -> half_minutes (tfCode F t).
Proof. intros C F t key digits H u v E. eapply hotp_unique; [apply H|]. rewrite E. apply H. Qed.
Print Assumptions C86_rfc.

(** A token whose code is the half minute. *)
Definition xs_tf : twofactor :=
  TF Z bytes unit (fun _ c _ => c) (fun k _ _ => k) (fun s => Some s) (fun h => ([zb (48 + h)], h + 1)) (fun _ n => [zb (48 + n / 30)]) (fun _ _ => [])
    (fun h l => x68 :: zb (48 + h) :: l) (fun _ l => x74 :: l)
    (fun u => Ret match u with x68 :: c :: l => Some (OH (bz c - 48), l) | x74 :: l => Some (OT [], l) | _ => None end)
    (fun _ l => Some l) (fun _ l => Some l) (fun a => Some (30, a)) (map upper).
Example C86_nonvacuous :
  let clk i := nth i [58; 58; 58; 59; 60; 60; 90; 90] 120 in
  print_gtotp xs_tf clk 3600 4 (OT []) =
    [ENow 58; ENow 58; EPrint (bs "1" ++ [x0a]); EPrint (bs "Updates in 2 seconds." ++ [x0a]); ENow 58; ESleep 1; ENow 59; ESleep 1;
     ENow 60; ENow 60; EPrint (bs "2" ++ [x0a]); ESleep 30; ENow 90; ENow 90; EPrint (bs "3" ++ [x0a]); ESleep 30] /\
  timed 0 None 0 (print_gtotp xs_tf clk 3600 4 (OT [])) /\ half_minutes (tfCode xs_tf []) /\
  (* started on the half minute it shows the code twice *)
  texts (print_gtotp xs_tf (fun _ => 30) 0 1 (OT [])) = [bs "1" ++ [x0a]; bs "Updates in 30 seconds." ++ [x0a]; bs "1" ++ [x0a]] /\
  (* two looks at the clock *)
  texts (print_totp xs_tf (fun i => nth i [59; 60; 61; 62] 63) 3 (OT [])) = [bs "1" ++ [x0a]; bs "2" ++ [x0a]] /\
  texts (print_totp xs_tf (fun _ => 0) 2 (OH 0)) = [bs "0" ++ [x0a]; bs "2" ++ [x0a]; bs "4" ++ [x0a]] /\
  (* which of the records in a store *)
  match set_rec xo_store (bs "b") (xo_rec (bs "b") (bs "TOTP-GOOGLE") (bs "tb")) with
  | Ret s => (match live xs_tf clk 0 1 s (OCfg [bs "b"] Unknown) with Some _ => true | None => false end, match live xs_tf clk 0 1 s (OCfg [bs "a"] Unknown) with Some _ => true | None => false end)
  | Panic => (false, true)
  end = (true, false).
Proof.
  split; [vm_compute; reflexivity|]. split; [vm_compute; intuition congruence|]. split; [intros t u E; cbn; rewrite E; reflexivity|]. split; [vm_compute; reflexivity|]. split; [vm_compute; reflexivity|].
  split; vm_compute; reflexivity.
Qed.

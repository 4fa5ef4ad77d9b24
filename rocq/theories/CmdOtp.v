(** Model of cmd/otpc/otpc.go. No proofs here. *)
From Verif Require Export CmdJournal Base32.
Local Open Scope Z_scope.

(** The packages outside the repository that otpc uses: github.com/gokyle/twofactor,
    of which nothing is assumed here, [time.ParseDuration] and [bytes.ToUpper].
    [OOther] is a token of neither type. *)
Inductive otp (H T X : Type) := OH (h : H) | OT (t : T) | OOther (x : X).
Arguments OH {H T X}. Arguments OT {H T X}. Arguments OOther {H T X}.
Record twofactor := TF {
  tfH : Type; tfT : Type; tfX : Type;
  tfNewHotp : bytes -> Z -> Z -> tfH;             (* [NewHOTP(key, counter, digits)] *)
  tfNewTotp : bytes -> Z -> Z -> tfT;             (* [NewTOTPSHA1(key, 0, step, digits)] *)
  tfNewGoogle : bytes -> option tfT;              (* [NewGoogleTOTP(secret)] *)
  tfNext : tfH -> bytes * tfH;                    (* [HOTP.OTP()] *)
  tfCode : tfT -> Z -> bytes;                     (* [TOTP.OTP()], at a time *)
  tfCodeX : tfX -> Z -> bytes;
  tfUrlH : tfH -> bytes -> bytes;                 (* [HOTP.URL(label)] *)
  tfUrlT : tfT -> bytes -> bytes;
  tfFromUrl : bytes -> outcome (option (otp tfH tfT tfX * bytes)); (* [FromURL] *)
  tfQrH : tfH -> bytes -> option bytes;           (* [HOTP.QR(label)] *)
  tfQrT : tfT -> bytes -> option bytes;
  tfDuration : bytes -> option (Z * bytes);       (* seconds and text of a duration *)
  tfUpper : bytes -> bytes;                       (* [bytes.ToUpper] *)
}.

(** The constants, cmd/otpc/otpc.go:36-41 (0, 2, 3, 4), and [parseOTPKind],
    cmd/otpc/otpc.go:113-125. *)
Inductive okind := Unknown | HOTP | TOTP | GoogleTOTP.
Definition parse_kind (t : bytes) : okind :=
  let t := to_lower t in
  if decide (t = bs "totp") then TOTP
  else if decide (t = bs "google" \/ t = bs "totp-google") then GoogleTOTP
  else if decide (t = bs "hotp") then HOTP
  else Unknown.

(** [strconv.Atoi]: an optional sign, at least one digit, 64 bits. *)
Fixpoint atoi_digits (s : bytes) (acc : Z) : option Z :=
  match s with
  | [] => Some acc
  | c :: s => if decide (48 <= bz c <= 57) then atoi_digits s (acc * 10 + (bz c - 48)) else None
  end.
Definition atoi (s : bytes) : option Z :=
  let '(sign, d) := match s with x2b :: d => (1, d) | x2d :: d => (-1, d) | _ => (1, s) end in
  if decide (d = []) then None else
  match atoi_digits d 0 with
  | Some n => if decide (- 2 ^ 63 <= sign * n < 2 ^ 63) then Some (sign * n) else None
  | None => None
  end.

Record ocfg := OCfg { oArgs : list bytes; oType : okind }.
Definition oarg (n : nat) (c : ocfg) : bytes := nth n (oArgs c) [].

Section WithTwofactor.
Context (F : twofactor).

(** A line, or the given text for an empty one. *)
Definition line_or (dflt : bytes) (w : world) : option bytes * world :=
  match w_line w with
  | (Some [], w) => (Some dflt, w)
  | r => r
  end.

(** [addSecret], cmd/otpc/otpc.go:149-282. [Overwrite] is never set. *)
Definition add_rec (label url : bytes) (md : gmap bytes (option bytes)) (s : sstore) (code : bytes) (w : world) : res (bool * sstore) :=
  let w := w_print w (bs "Confirmation: " ++ code ++ [x0a]) in
  let '(now, w) := w_now w in
  let* (s, w) := lift (set_rec s label (Some (SRec label now (Some url) (Some md)))) w in
  Done (true, s) w.
Definition otp_add (s : sstore) (c : ocfg) (w : world) : res (bool * sstore) :=
  let label := oarg 0 c in
  if store_has s label then Fail w else
  match w_pass w with
  | (None, w) => Fail w
  | (Some secret, w) =>
      let secret := sanitise (tfUpper F) secret in
      match oType c with
      | HOTP =>
          match line_or (bs "0") w with
          | (None, w) => Fail w
          | (Some a, w) =>
              match atoi a with
              | None => Fail w
              | Some d =>
                  match line_or (bs "6") w with
                  | (None, w) => Fail w
                  | (Some a, w) =>
                      match atoi a with
                      | None => Fail w
                      | Some digits =>
                          match b32_decode secret with
                          | None => Fail (w_print w secret)
                          | Some key =>
                              let '(code, h) := tfNext F (tfNewHotp F key (d mod 2 ^ 64) digits) in
                              add_rec label (tfUrlH F h label) (list_to_map [(bs "key", Some secret); (bs "type", Some (bs "HOTP")); (bs "confirmation", Some code)]) s code w
                          end
                      end
                  end
              end
          end
      | TOTP =>
          match line_or (bs "30s") w with
          | (None, w) => Fail w
          | (Some a, w) =>
              match tfDuration F a with
              | None => Fail w
              | Some (step, text) =>
                  match line_or (bs "6") w with
                  | (None, w) => Fail w
                  | (Some a, w) =>
                      match atoi a with
                      | None => Fail w
                      | Some digits =>
                          match b32_decode secret with
                          | None => Fail w
                          | Some key =>
                              let t := tfNewTotp F key step digits in
                              let '(now, w) := w_now w in
                              let code := tfCode F t now in
                              add_rec label (tfUrlT F t label) (list_to_map [(bs "key", Some secret); (bs "type", Some (bs "TOTP-SHA1")); (bs "step", Some text); (bs "confirmation", Some code)]) s code w
                          end
                      end
                  end
              end
          end
      | GoogleTOTP =>
          match tfNewGoogle F secret with
          | None => Fail w
          | Some t =>
              let '(now, w) := w_now w in
              let code := tfCode F t now in
              add_rec label (tfUrlT F t label) (list_to_map [(bs "key", Some secret); (bs "type", Some (bs "TOTP-GOOGLE")); (bs "step", Some (bs "30s")); (bs "confirmation", Some code)]) s code w
          end
      | Unknown => Fail w
      end
  end.

(** [parseTwofactorType], cmd/otpc/otpc.go:321-330, of the type of a token. *)
Definition kind_of (o : otp (tfH F) (tfT F) (tfX F)) : okind := match o with OH _ => HOTP | OT _ => TOTP | OOther _ => Unknown end.
(** [showQR], cmd/otpc/otpc.go:332-364. *)
Definition otp_qr (s : sstore) (c : ocfg) (w : world) : res (bool * sstore) :=
  match recs s !! oarg 0 c with
  | None => Fail w
  | Some None => Crash w
  | Some (Some r) =>
      let* (p, w) := lift (tfFromUrl F (default [] (rSecret r))) w in
      match p with
      | None => Fail w
      | Some (o, label) =>
          match match o with OH h => tfQrH F h label | OT t => tfQrT F t label | OOther _ => None end with
          | None => Fail w
          | Some qr => let '(ok, w) := w_raw_write w (oarg 1 c) qr in if ok : bool then Done (false, s) w else Fail w
          end
      end
  end.
(** [showSecret], cmd/otpc/otpc.go:366-400. [printTOTP] and [printGTOTP]
    (284-314) never return; OtpShow.v models what they do. [label] is reassigned: the record is stored again under
    the label of its URL, and the record under the label given, being the same
    pointer, changes with it. *)
Definition code_of (o : otp (tfH F) (tfT F) (tfX F)) (w : world) : bytes * world :=
  match o with
  | OH h => (fst (tfNext F h), w)
  | OT t => let '(now, w) := w_now w in (tfCode F t now, w)
  | OOther x => let '(now, w) := w_now w in (tfCodeX F x now, w)
  end.
Definition shown_kind (o : otp (tfH F) (tfT F) (tfX F)) (r : srec) : okind :=
  match default ∅ (rMeta r) !! bs "type" with None => kind_of o | Some v => parse_kind (default [] v) end.
Definition otp_show (s : sstore) (c : ocfg) (w : world) : res (bool * sstore) :=
  match recs s !! oarg 0 c with
  | None => Fail w
  | Some None => Crash w
  | Some (Some r) =>
      let* (p, w) := lift (tfFromUrl F (default [] (rSecret r))) w in
      match p with
      | None => Fail w
      | Some (o, label) =>
          match shown_kind o r with
          | Unknown => Fail w
          | TOTP | GoogleTOTP => Spin
          | HOTP =>
              let '(code, w) := code_of o w in
              let w := w_print w (code ++ [x0a]) in
              match o with
              | OH h =>
                  let '(now, w) := w_now w in
                  let r := Some (SRec (rLabel r) now (Some (tfUrlH F (snd (tfNext F h)) label)) (rMeta r)) in
                  let* (s, w) := lift (set_rec s (oarg 0 c) r) w in
                  let* (s, w) := lift (set_rec s label r) w in
                  Done (true, s) w
              | _ => Crash w
              end
          end
      end
  end.

(** [commandSet], cmd/otpc/otpc.go:29-33. *)
Inductive ocmd := OShow | OStore | OQr.
Definition orequired (x : ocmd) : nat := match x with OQr => 2 | _ => 1 end.
Definition orun (x : ocmd) : sstore -> ocfg -> world -> res (bool * sstore) :=
  match x with OShow => otp_show | OStore => otp_add | OQr => otp_qr end.

Context `{C : Crypto}.
(** [main], cmd/otpc/otpc.go:402-473, after the options are parsed. *)
Definition otpc_run (m : Z) (x : ocmd) (path : bytes) (c : ocfg) (w : world) : res unit :=
  if decide (length (oArgs c) < orequired x)%nat then Fail w else with_store (fun s w => orun x s c w) path m w.
Definition otpc_main (m : Z) (doInit doStore doQR : bool) (path kind : bytes) (args : list bytes) (w : world) : res unit :=
  let c := OCfg args (parse_kind kind) in
  if doInit then init_any path m w else
  if doStore then otpc_run m OStore path c w else
  if doQR then otpc_run m OQr path c w else otpc_run m OShow path c w.
End WithTwofactor.

(** What the otpc command should do. *)
From Verif Require Export SpecJournal CmdOtp SpecBase32.
Local Open Scope Z_scope.

(** Decimal numbers of 64 bits. *)
Inductive digits_value : bytes -> Z -> Prop :=
  | dv_nil : digits_value [] 0
  | dv_snoc s c n : digits_value s n -> 48 <= bz c <= 57 -> digits_value (s ++ [c]) (n * 10 + (bz c - 48)).
Definition decimal (s : bytes) (n : Z) : Prop :=
  int64 n /\ exists d m, d <> [] /\ digits_value d m /\
    ((s = d \/ s = x2b :: d) /\ n = m \/ s = x2d :: d /\ n = - m).
(** A number typed, or the default for an empty line. *)
Definition number_or (dflt : Z) (line : bytes) (n : Z) : Prop :=
  line = [] /\ n = dflt \/ line <> [] /\ decimal line n.

Section WithTwofactor.
Context (F : twofactor).
(** [makes kind lines key url code name]: a token of the kind, from the lines typed
    and the text of its key; its URL, the code shown for confirmation and the name
    of its type as stored. *)
Inductive makes (label : bytes) : okind -> list bytes -> bytes -> bytes -> bytes -> bytes -> Prop :=
  | mk_hotp l1 l2 text key d digits h code : number_or 0 l1 d -> number_or 6 l2 digits -> b32_decode text = Some key ->
      tfNext F (tfNewHotp F key (d mod 2 ^ 64) digits) = (code, h) -> makes label HOTP [l1; l2] text (tfUrlH F h label) code (bs "HOTP")
  | mk_totp l1 l2 text key step st digits now : tfDuration F (if decide (l1 = []) then bs "30s" else l1) = Some (step, st) -> number_or 6 l2 digits ->
      b32_decode text = Some key ->
      makes label TOTP [l1; l2] text (tfUrlT F (tfNewTotp F key step digits) label) (tfCode F (tfNewTotp F key step digits) now) (bs "TOTP-SHA1")
  | mk_google text t now : tfNewGoogle F text = Some t -> makes label GoogleTOTP [] text (tfUrlT F t label) (tfCode F t now) (bs "TOTP-GOOGLE").
(** The token of a record, whatever its stored type. *)
Definition hotp_record (r : srec) (h : tfH F) (label : bytes) : Prop :=
  tfFromUrl F (default [] (rSecret r)) = Ret (Some (OH h, label)).
(** The library reads the URLs it writes for this label. *)
Definition url_reads (label : bytes) : Prop := forall h, tfFromUrl F (tfUrlH F h label) = Ret (Some (OH h, label)).

Context `{C : Crypto}.
(** The file holds the counter-based token [h] under the label. *)
Definition hotp_at (f : fs) (path : bytes) (m : Z) (pass label : bytes) (h : tfH F) : Prop :=
  exists s r md, opens f path m pass s /\ slot s label = Some (Some r) /\ rSecret r = Some (tfUrlH F h label) /\
    rMeta r = Some md /\ md !! bs "type" = Some (Some (bs "HOTP")).
End WithTwofactor.

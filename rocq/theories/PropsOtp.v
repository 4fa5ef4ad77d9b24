(** Properties C61 and C62: the otpc command. *)
From Verif Require Export CmdOtpFacts Base32Facts Toy.
Local Open Scope Z_scope.

(** For the examples: a library of tokens, and a store under the toy primitives. *)
Definition xo_tf : twofactor :=
  TF Z bytes unit (fun _ c _ => c) (fun k _ _ => k) (fun s => Some s) (fun h => ([zb (48 + h)], h + 1)) (fun _ n => [zb (48 + n)]) (fun _ _ => [])
    (fun h l => x68 :: zb (48 + h) :: l) (fun _ l => x74 :: l)
    (fun u => Ret match u with x68 :: c :: l => Some (OH (bz c - 48), l) | x74 :: l => Some (OT [], l) | _ => None end)
    (fun _ l => Some l) (fun _ l => Some l) (fun a => Some (30, a)) (map upper).
Definition xo_rec (l t u : bytes) : option srec := Some (SRec l 3 (Some u) (Some {[ bs "type" := Some t ]})).
Definition xo_store : sstore :=
  SStore 1 5 (Some {[ bs "a" := xo_rec (bs "a") (bs "HOTP") (bs "h2a"); bs "c" := xo_rec (bs "c") (bs "HOTP") (bs "h2a") ]}) (Some (bs "p")).
Definition xo_rng : rng := replicate 56 (Some x2a).
Definition xo_file : bytes := match marshal_store (C:=toy) xo_store 1 xo_rng with Ret (Some d, _, _) => d | _ => [] end.
Definition xo_world (sec : bytes) (ls : list bytes) : world := World {[ bs "f" := xo_file ]} (map typed ls) [Some (bs "p"); Some sec] [7; 8; 9] xo_rng [] [].
Definition xo_view (r : res unit) : option (list (bytes * option bytes)) :=
  match r with
  | Done _ w =>
      match wFs w !! bs "f" with
      | Some d =>
          match unmarshal_store (C:=toy) d (bs "p") 1 with
          | Ret (Some s) => Some (map (fun kv => (fst kv, match snd kv with Some r => rSecret r | None => None end)) (map_to_list (recs s)))
          | _ => None
          end
      | None => None
      end
  | _ => None
  end.
(** C61. The text of a secret. *)
Theorem C61_shape :
  forall up s,
    x20 ∉ sanitise up s /\ (length (sanitise up s) mod 8 = 0)%nat.
Proof. exact @sanitise_shape. Qed.
Print Assumptions C61_shape.

Theorem C61_upper :
  forall up s,
    ascii_upper up -> ascii s -> ascii (sanitise up s) /\ Forall (fun c => upper c = c) (sanitise up s).
Proof. exact @sanitise_upper. Qed.
Print Assumptions C61_upper.

Theorem C61_idempotent :
  forall up s,
    ascii_upper up -> ascii s -> sanitise up (sanitise up s) = sanitise up s.
Proof. exact @sanitise_idem. Qed.
Print Assumptions C61_idempotent.

Theorem C61_valid_unchanged :
  forall up s k,
    ascii_upper up -> b32_decode s = Some k -> (length s mod 8 = 0)%nat -> x0a ∉ s -> x0d ∉ s -> sanitise up s = s.
Proof. exact @sanitise_valid. Qed.
Print Assumptions C61_valid_unchanged.

Theorem C61_decodes :
  forall up s k t,
    ascii_upper up -> ascii s -> b32 k t \/ b32_padded k t -> map upper (filter (fun c => c <> x20) s) = t -> b32_decode (sanitise up s) = Some k.
Proof. exact @sanitise_decodes. Qed.
Print Assumptions C61_decodes.

Theorem C61_decoder :
  forall k t,
    b32_padded k t -> b32_decode t = Some k.
Proof. exact @padded_decodes. Qed.
Print Assumptions C61_decoder.

Theorem C61_keeps_key_refuted :
  forall up,
    ascii_upper up ->
    (exists s k, b32_decode s = Some k /\ b32_decode (sanitise up s) = None /\ Forall (fun c => b32_letter c \/ c = x0a) s) /\
    (exists s k, b32_decode s = Some k /\ b32_decode (sanitise up s) = None /\ Forall b32_letter s).
Proof. exact @sanitise_breaks. Qed.
Print Assumptions C61_keeps_key_refuted.

Example C61_nonvacuous :
  sanitise (map upper) (bs "mzxw 6ytb oi") = bs "MZXW6YTBOI======" /\ b32_decode (bs "MZXW6YTBOI======") = Some (bs "foobar") /\
  b32 (bs "foobar") (bs "MZXW6YTBOI") /\ b32_padded (bs "foobar") (bs "MZXW6YTBOI======") /\ ascii_upper (map upper).
Proof.
  assert (b32 (bs "foobar") (bs "MZXW6YTBOI")) as B by (apply (b32_more (bs "fooba") (bs "r") (b32_chars (bs "r"))); [reflexivity|apply b32_last; cbn; lia]).
  split; [vm_compute; reflexivity|]. split; [vm_compute; reflexivity|]. split; [exact B|]. split; [|intros s _; reflexivity].
  exists (bs "MZXW6YTBOI"), 6%nat. split; [exact B|]. split; [reflexivity|]. vm_compute. split; [lia|reflexivity].
Qed.

(** C62. Storing and showing tokens. *)
Theorem C62_store :
  forall (F : twofactor) (C : Crypto) (L : CryptoLaws) m path c w w',
    plain_path path -> good_clock w -> otpc_run F m OStore path c w = Done tt w' ->
    exists pass secret pws s s' label rest lines url code name md now, wPw w = Some pass :: Some secret :: pws /\ oArgs c = label :: rest /\
      opens (wFs w) path m pass s /\ saved (wFs w') path m s' /\ sPass s' = Some pass /\ sVersion s' = sVersion s /\
      slot s label = None /\ same_but label s s' /\ slot s' label = Some (Some (SRec label now (Some url) (Some md))) /\
      makes F label (oType c) lines (sanitise (tfUpper F) secret) url code name /\
      md !! bs "key" = Some (Some (sanitise (tfUpper F) secret)) /\ md !! bs "type" = Some (Some name) /\ md !! bs "confirmation" = Some (Some code) /\
      (utf8_text label -> opens (wFs w') path m pass s').
Proof. exact @otpc_store. Qed.
Print Assumptions C62_store.

Theorem C62_no_overwrite :
  forall (F : twofactor) (C : Crypto) m path c w pass ps s label rest,
    plain_path path -> wPw w = Some pass :: ps -> opens (wFs w) path m pass s -> oArgs c = label :: rest -> slot s label <> None ->
    exists w', otpc_run F m OStore path c w = Fail w' /\ wFs w' = wFs w.
Proof. exact @otpc_store_taken. Qed.
Print Assumptions C62_no_overwrite.

Theorem C62_unknown_type :
  forall (F : twofactor) (C : Crypto) m path c w w',
    oType c = Unknown -> otpc_run F m OStore path c w <> Done tt w' /\ otpc_run F m OStore path c w <> Spin.
Proof. exact @otpc_unknown. Qed.
Print Assumptions C62_unknown_type.

Theorem C62_totp_refused :
  forall (F : twofactor) (C : Crypto) (L : CryptoLaws) m path c w w' c2 w2 label rest rest2,
    plain_path path -> good_clock w -> otpc_run F m OStore path c w = Done tt w' -> oType c = TOTP ->
    oArgs c = label :: rest -> utf8_text label -> oArgs c2 = label :: rest2 -> wFs w2 = wFs w' -> head (wPw w2) = head (wPw w) ->
    exists w3, (otpc_run F m OShow path c2 w2 = Fail w3 \/ otpc_run F m OShow path c2 w2 = Crash w3) /\ wFs w3 = wFs w2.
Proof. exact @totp_refused. Qed.
Print Assumptions C62_totp_refused.

Theorem C62_google_shown :
  forall (F : twofactor) (C : Crypto) (L : CryptoLaws) m path c w w' c2 w2 label rest rest2,
    plain_path path -> good_clock w -> otpc_run F m OStore path c w = Done tt w' -> oType c = GoogleTOTP ->
    oArgs c = label :: rest -> utf8_text label -> oArgs c2 = label :: rest2 -> wFs w2 = wFs w' -> head (wPw w2) = head (wPw w) ->
    (forall t, exists o l, tfFromUrl F (tfUrlT F t label) = Ret (Some (o, l))) -> otpc_run F m OShow path c2 w2 = Spin.
Proof. exact @google_shown. Qed.
Print Assumptions C62_google_shown.

Theorem C62_hotp_stored :
  forall (F : twofactor) (C : Crypto) (L : CryptoLaws) m path c w w' label rest,
    plain_path path -> good_clock w -> otpc_run F m OStore path c w = Done tt w' -> oType c = HOTP ->
    oArgs c = label :: rest -> utf8_text label ->
    exists pass secret key d digits l1 l2, wPw w = Some pass :: Some secret :: drop 2 (wPw w) /\ number_or 0 l1 d /\ number_or 6 l2 digits /\ b32_decode (sanitise (tfUpper F) secret) = Some key /\
      hotp_at F (wFs w') path m pass label (snd (tfNext F (tfNewHotp F key (d mod 2 ^ 64) digits))).
Proof. exact @hotp_stored. Qed.
Print Assumptions C62_hotp_stored.

Theorem C62_hotp_next :
  forall (F : twofactor) (C : Crypto) (L : CryptoLaws) m path c w w' label rest pass h,
    plain_path path -> good_clock w -> url_reads F label -> utf8_text label -> oArgs c = label :: rest ->
    head (wPw w) = Some (Some pass) -> hotp_at F (wFs w) path m pass label h -> otpc_run F m OShow path c w = Done tt w' ->
    wOut w' = wOut w ++ fst (tfNext F h) ++ [x0a] /\ hotp_at F (wFs w') path m pass label (snd (tfNext F h)).
Proof. exact @hotp_next. Qed.
Print Assumptions C62_hotp_next.

Theorem C62_hotp_shown :
  forall (F : twofactor) (C : Crypto) (L : CryptoLaws) m path c w label rest pass ps h salt nonce g1 g2,
    plain_path path -> m = 0 \/ m = 1 -> disk_ok w -> url_reads F label -> oArgs c = label :: rest ->
    wPw w = Some pass :: ps -> hotp_at F (wFs w) path m pass label h -> (exists s, opens (wFs w) path m pass s /\ sVersion s = 1) -> nth 1 (wClk w) 0 <> 0 ->
    length salt = 32%nat -> length nonce = 24%nat -> delivers (wRng w) salt g1 -> delivers g1 nonce g2 -> exists w', otpc_run F m OShow path c w = Done tt w'.
Proof. exact @hotp_shown. Qed.
Print Assumptions C62_hotp_shown.

Theorem C62_show :
  forall (F : twofactor) (C : Crypto) (L : CryptoLaws) m path c w w',
    plain_path path -> good_clock w -> otpc_run F m OShow path c w = Done tt w' ->
    exists pass s s' label rest r h label2 r', head (wPw w) = Some (Some pass) /\ oArgs c = label :: rest /\ opens (wFs w) path m pass s /\ saved (wFs w') path m s' /\
      sPass s' = Some pass /\ slot s label = Some (Some r) /\ hotp_record F r h label2 /\ wOut w' = wOut w ++ fst (tfNext F h) ++ [x0a] /\
      rLabel r' = rLabel r /\ rMeta r' = rMeta r /\ rSecret r' = Some (tfUrlH F (snd (tfNext F h)) label2) /\
      slot s' label = Some (Some r') /\ slot s' label2 = Some (Some r') /\ (forall k, k <> label -> k <> label2 -> slot s' k = slot s k) /\
      (utf8_text label2 -> opens (wFs w') path m pass s').
Proof. exact @otpc_show. Qed.
Print Assumptions C62_show.

Theorem C62_qr :
  forall (F : twofactor) (C : Crypto) (L : CryptoLaws) m path c w w',
    plain_path path -> oarg 1 c <> [] -> otpc_run F m OQr path c w = Done tt w' ->
    exists pass s label file rest r o l qr, head (wPw w) = Some (Some pass) /\ oArgs c = label :: file :: rest /\ opens (wFs w) path m pass s /\ slot s label = Some (Some r) /\
      tfFromUrl F (default [] (rSecret r)) = Ret (Some (o, l)) /\ match o with OH h => tfQrH F h l | OT t => tfQrT F t l | OOther _ => None end = Some qr /\ wFs w' !! file = Some qr.
Proof. exact @otpc_qr. Qed.
Print Assumptions C62_qr.

Theorem C62_qr_other_files :
  forall (F : twofactor) (C : Crypto) m path c w w',
    ends (otpc_run F m OQr path c w) w' -> only_changes (oarg 1 c) (wFs w) (wFs w').
Proof. exact @otpc_qr_only. Qed.
Print Assumptions C62_qr_other_files.

Theorem C62_failures :
  forall (F : twofactor) (C : Crypto) (L : CryptoLaws) m x path c w w',
    no_qr x -> (otpc_run F m x path c w = Fail w' /\ disk_ok w) \/ otpc_run F m x path c w = Crash w' -> wFs w' = wFs w.
Proof. exact @otpc_fails. Qed.
Print Assumptions C62_failures.

Theorem C62_other_files :
  forall (F : twofactor) (C : Crypto) m x path c w w',
    no_qr x -> ends (otpc_run F m x path c w) w' -> only_changes path (wFs w) (wFs w').
Proof. exact @otpc_only. Qed.
Print Assumptions C62_other_files.

Theorem C62_numbers :
  forall s n,
    atoi s = Some n <-> decimal s n.
Proof. exact @atoi_iff. Qed.
Print Assumptions C62_numbers.

Example C62_nonvacuous :
  (* a new counter-based token: the code of counter 5 was its confirmation *)
  xo_view (otpc_run xo_tf (C:=toy) 1 OStore (bs "f") (OCfg [bs "d"] HOTP) (xo_world (bs "mzxw6ytb") [bs "5"; []])) =
    Some [(bs "a", Some (bs "h2a")); (bs "c", Some (bs "h2a")); (bs "d", Some (bs "h6d"))] /\
  (* the next code; the URL under c names a: the record of a is replaced too *)
  match otp_show xo_tf xo_store (OCfg [bs "c"] Unknown) (xo_world [] []) with
  | Done (_, s) w => Some (map (fun kv => (fst kv, match snd kv with Some r => rSecret r | None => None end)) (map_to_list (recs s)), wOut w)
  | _ => None
  end = Some ([(bs "a", Some (bs "h3a")); (bs "c", Some (bs "h3a"))], bs "2" ++ [x0a]) /\
  (* a time-based token as stored is refused *)
  match set_rec xo_store (bs "b") (xo_rec (bs "b") (bs "TOTP-SHA1") (bs "tb")) with
  | Ret s => match otp_show xo_tf s (OCfg [bs "b"] Unknown) (xo_world [] []) with Fail _ => true | _ => false end
  | _ => false
  end = true.
Proof. vm_compute. split_and!; reflexivity. Qed.


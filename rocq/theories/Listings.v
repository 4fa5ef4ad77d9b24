(** Model of the texts that secrets and fcrypt print about a store: [showSecret] and
    [list], cmd/secrets/secrets.go:121-142 and 212-233, [keyList],
    exp/fcrypt/fcrypt.go:464-491. CmdSecrets.v and Fcrypt.v leave these texts out.
    No proofs here. *)
From Verif Require Export Calendar Display Fcrypt.
Local Open Scope Z_scope.

(** [list], cmd/secrets/secrets.go:212-233. Println puts a blank between its operands,
    the first of which ends with one. *)
Definition secrets_list_text (loc : location) (s : sstore) : bytes :=
  if decide (size (recs s) = 0%nat) then bs "no passwords" else
  bs "Secrets store was updated " ++ bs " " ++ minute_text loc (sTime s) ++ [nl] ++
  show (Z.of_nat (size (recs s))) ++ bs " entries" ++ [nl; nl] ++ bs "Names:" ++ [nl] ++
  concat (map (fun k => [x09] ++ k ++ [nl]) (merge_sort str_le (map fst (map_to_list (recs s))))).
(** [showSecret], cmd/secrets/secrets.go:121-142, from line 127 on; [ord] is the order in
    which Go walks through the metadata. *)
Definition secrets_show_text (loc : location) (ord : gmap bytes (option bytes) -> list (bytes * option bytes)) (c : scfg) (r : srec) : bytes :=
  let sec := default [] (rSecret r) in
  if cClip c then sec else
  bs "Secret: " ++ sec ++ [nl] ++
  if cMeta c then
    bs "Timestamp: " ++ show_int (rTime r) ++ bs " (" ++ minute_text loc (rTime r) ++ bs ")" ++ [nl] ++
    concat (map (fun kv => [x09] ++ fst kv ++ bs ": " ++ default [] (snd kv) ++ [nl]) (ord (default ∅ (rMeta r))))
  else [].

Section WithCrypto.
Context `{C : Crypto}.
(** The two commands as [main] runs them, cmd/secrets/secrets.go:477-504. *)
Definition secrets_list (loc : location) (path : bytes) (m : Z) (w : world) : res unit :=
  let* (s, w) := load_store path m w in Done tt (w_print w (secrets_list_text loc s)).
Definition secrets_show (loc : location) (ord : gmap bytes (option bytes) -> list (bytes * option bytes)) (path : bytes) (m : Z) (c : scfg) (w : world) : res unit :=
  if decide (length (cArgs c) < 1)%nat then Fail w else
  let* (s, w) := load_store path m w in
  match recs s !! arg0 c with
  | None => Fail w
  | Some None => Crash w
  | Some (Some r) => Done tt (w_print w (secrets_show_text loc ord c r))
  end.
End WithCrypto.

(** [keyList], exp/fcrypt/fcrypt.go:464-491, of what it finds. *)
Definition fc_line_text (loc : location) (x : listed) : bytes :=
  [x09] ++ liLabel x ++ [nl] ++
  [x09; x09] ++ bs "Last update: " ++ minute_text loc (liTime x) ++ [nl] ++
  [x09; x09] ++ bs "  Signed at: " ++ minute_text loc (liSigned x) ++ [nl] ++
  [x09; x09] ++ bs "  Signed by: " ++ default (bs "<unknown>") (liSigner x) ++ [nl] ++
  [x09; x09] ++ bs "Fingerprint: " ++ liPrint x ++ [nl].
Definition fc_report_text (loc : location) (r : report) : bytes :=
  match r with
  | RNone => []
  | RList time count print keys =>
      bs "Key store was last updated " ++ minute_text loc time ++ [nl] ++
      show (Z.of_nat count) ++ bs " keys stored" ++ [nl] ++ bs "Owner public key:" ++ [nl] ++
      [x09] ++ bs "Fingerprint: " ++ print ++ [nl] ++
      if decide (0 < count)%nat then bs "Key store:" ++ [nl] ++ concat (map (fc_line_text loc) keys) else []
  end.

(** What secrets and fcrypt print about a store, independent of the model. *)
From Verif Require Export SpecCalendar SpecShow SpecFcrypt.
Local Open Scope Z_scope.

(** The labels of a store in Go's order. *)
Definition labels_of (s : sstore) (ks : list bytes) : Prop :=
  StronglySorted str_lt ks /\ forall k, k ∈ ks <-> slot s k <> None.
(** [when] is the text of a time. *)
Definition secrets_listing (when : Z -> bytes) (s : sstore) (t : bytes) : Prop :=
  exists ks n, labels_of s ks /\ natural_text n (Z.of_nat (length ks)) /\
    (ks = [] /\ t = bs "no passwords" \/
     ks <> [] /\ t = bs "Secrets store was updated  " ++ when (sTime s) ++ [x0a] ++ n ++ bs " entries" ++ [x0a; x0a] ++ bs "Names:" ++ [x0a] ++ concat (map (fun k => x09 :: k ++ [x0a]) ks)).
Inductive secrets_showing (when : Z -> bytes) (r : srec) : bool -> bool -> bytes -> Prop :=
  | ss_clip meta : secrets_showing when r true meta (default [] (rSecret r))
  | ss_plain : secrets_showing when r false false (bs "Secret: " ++ default [] (rSecret r) ++ [x0a])
  | ss_meta n es : integer_text n (rTime r) -> es ≡ₚ map_to_list (default ∅ (rMeta r)) ->
      secrets_showing when r false true (bs "Secret: " ++ default [] (rSecret r) ++ [x0a] ++ bs "Timestamp: " ++ n ++ bs " (" ++ when (rTime r) ++ bs ")" ++ [x0a] ++
        concat (map (fun e => x09 :: fst e ++ bs ": " ++ default [] (snd e) ++ [x0a]) es)).

(** One key in fcrypt's listing: who signed it is the owner, the label of a key of the store
    that is the signer's, or unknown. *)
Definition shown_signer (s : kstore) (r : krec) (who : bytes) : Prop :=
  signer r = owner s /\ who = bs "self" \/
  signer r <> owner s /\ ((exists k y, krecord s k y /\ subject y = signer r /\ krLabel y = who) \/
    (forall k y, krecord s k y -> subject y <> signer r) /\ who = bs "<unknown>").
Definition key_block `{C : Crypto} (when : Z -> bytes) (s : kstore) (kv : bytes * option krec) (t : bytes) : Prop :=
  exists r who, snd kv = Some r /\ shown_signer s r who /\
    t = x09 :: fst kv ++ [x0a; x09; x09] ++ bs "Last update: " ++ when (krTime r) ++ [x0a; x09; x09] ++ bs "  Signed at: " ++ when (krSigTime r) ++
      [x0a; x09; x09] ++ bs "  Signed by: " ++ who ++ [x0a; x09; x09] ++ bs "Fingerprint: " ++ hex_encode (sha256 (subject r)) ++ [x0a].
Definition keys_listing `{C : Crypto} (when : Z -> bytes) (s : kstore) (order : list (bytes * option krec)) (t : bytes) : Prop :=
  exists n blocks, natural_text n (Z.of_nat (length order)) /\ Forall2 (key_block when s) order blocks /\
    t = bs "Key store was last updated " ++ when (ksTime s) ++ [x0a] ++ n ++ bs " keys stored" ++ [x0a] ++ bs "Owner public key:" ++ [x0a; x09] ++ bs "Fingerprint: " ++
      hex_encode (sha256 (owner s)) ++ [x0a] ++ (if decide (order = []) then [] else bs "Key store:" ++ [x0a] ++ concat blocks).
(** The same end in the same world, but for what has been printed. *)
Definition mute (w : world) : world := World (wFs w) (wIn w) (wPw w) (wClk w) (wRng w) (wFate w) [].
Definition same_but_output {A} (r r' : res A) : Prop :=
  match r, r' with
  | Done a w, Done a' w' => a = a' /\ mute w = mute w'
  | Fail w, Fail w' | Crash w, Crash w' => mute w = mute w'
  | Spin, Spin => True
  | _, _ => False
  end.

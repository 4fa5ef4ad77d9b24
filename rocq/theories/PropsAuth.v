(** Property theorems about common/auth (C27-C35, C71, and the session part of
    C17). Only statements, each closed by a lemma of AuthFacts.v or AuthRuns.v. *)
From Verif Require Import AuthFacts AuthRuns ToyAuth.
From Coq Require Import Sorting.
Local Open Scope Z_scope.

(** C17. *)
Theorem C17_new_session_never_succeeds :
  forall (C : Crypto) pub g r g', new_session pub g = Ret (r, g') -> r = None.
Proof. exact @new_session_never. Qed.
Print Assumptions C17_new_session_never_succeeds.

Theorem C17_new_session_panics :
  forall (C : Crypto) pub g, ~ starved g 96 -> new_session pub g = Panic.
Proof. exact @new_session_panics. Qed.
Print Assumptions C17_new_session_panics.

Definition C17_source96 : rng := map Some (replicate 96 x07).
Example C17_session_nonvacuous :
  ~ starved C17_source96 96 /\ new_session (C:=toy) (replicate 64 x01) C17_source96 = Panic.
Proof.
  split; [|vm_compute; reflexivity]. intros S. apply (S (replicate 96 x07) []); [reflexivity|].
  unfold delivers, C17_source96. rewrite app_nil_r. reflexivity.
Qed.

(** C27. *)
Theorem C27_discipline :
  forall (C : Crypto) (L : CryptoLaws) (A : AuthLib) now a pw g r,
    validate now a pw g = Ret r ->
    (v_err r <> None -> v_update r = false /\ v_auth r = a) /\
    (v_update r = true -> v_err r = None) /\
    (v_update r = true -> exists au au', a = Some au /\ v_auth r = Some au' /\
       aType au' = aType au /\ aLabel au' = aLabel au /\
       ((aType au = bs "TOTP" /\ aSecret au' = aSecret au /\ aLast au' = pw /\ aLast au <> pw) \/
        (aType au = bs "yubikey" /\ aLast au' = pw /\ aLast au <> pw) \/
        (aType au = bs "session" /\ aSecret au' = aSecret au /\
         exists next, length next = 32%nat /\ delivers g next (v_rng r) /\ aLast au' = hex_encode next))) /\
    (v_update r = false -> v_auth r = a).
Proof. exact @validate_discipline. Qed.
Print Assumptions C27_discipline.

Theorem C27_unknown_rejected :
  forall (C : Crypto) (A : AuthLib) now a pw g,
    (forall au, a = Some au -> aType au <> bs "TOTP" /\ aType au <> bs "session" /\
                               aType au <> bs "yubikey" /\ aType au <> bs "password") ->
    validate now a pw g = Ret (VRes a false (Some EInvalidAuthenticator) g).
Proof. exact @validate_unknown. Qed.
Print Assumptions C27_unknown_rejected.

Theorem C27_password_never_updates :
  forall (A : AuthLib) au pw g,
    exists e, validate_password (Some au) pw g = Ret (VRes (Some au) false e g).
Proof. exact @password_discipline. Qed.
Print Assumptions C27_password_never_updates.

Theorem C27_each_validator_checks_its_type :
  forall (C : Crypto) (A : AuthLib) now a pw g,
    (forall au, a = Some au -> aType au <> bs "TOTP") ->
      validate_totp now a pw g = Ret (VRes a false (Some EInvalidAuthenticator) g).
Proof. exact @totp_wrong_type. Qed.
Print Assumptions C27_each_validator_checks_its_type.

Theorem C27_session_checks_its_type :
  forall (C : Crypto) a pw g,
    (forall au, a = Some au -> aType au <> bs "session") ->
      validate_session a pw g = Ret (VRes a false (Some EInvalidAuthenticator) g).
Proof. exact @session_wrong_type. Qed.
Print Assumptions C27_session_checks_its_type.

Theorem C27_yubikey_checks_its_type :
  forall (A : AuthLib) a pw g,
    (forall au, a = Some au -> aType au <> bs "yubikey") ->
      validate_yubikey a pw g = Ret (VRes a false (Some EInvalidAuthenticator) g).
Proof. exact @yubikey_wrong_type. Qed.
Print Assumptions C27_yubikey_checks_its_type.

Theorem C27_password_checks_its_type :
  forall (A : AuthLib) a pw g,
    (forall au, a = Some au -> aType au <> bs "password") ->
      validate_password a pw g = Ret (VRes a false (Some EInvalidAuthenticator) g).
Proof. exact @password_wrong_type. Qed.
Print Assumptions C27_password_checks_its_type.

Definition C27_challenge := hex_encode (replicate 32 x05).
Definition C27_session := Auth (bs "session") (bs "me") C27_challenge (replicate 32 x09).
Definition C27_source : rng := map Some (replicate 32 x06).
Example C27_nonvacuous :
  validate (C:=toy) (A:=toy_auth) 0 (Some C27_session)
    (hex_encode (replicate 32 x05 ++ hmac_sha256 (Crypto:=toy) (replicate 32 x09) (replicate 32 x05))) C27_source =
  Ret (VRes (Some (Auth (bs "session") (bs "me") (hex_encode (replicate 32 x06)) (replicate 32 x09))) true None []).
Proof. vm_compute. reflexivity. Qed.

(** C28. *)
Theorem C28_code_is_rfc :
  forall (C : Crypto) (L : CryptoLaws) c now,
    tStep c <> 0 -> 1 <= tSize c <= 10 -> tAlgo c = 3 ->
    exists s, otp_at c now = Ret (Some s) /\ totp_code c now s.
Proof. exact @otp_at_code. Qed.
Print Assumptions C28_code_is_rfc.

(** The specification determines the code. *)
Theorem C28_code_unique :
  forall (C : Crypto) key T d s s', hotp key T d s -> hotp key T d s' -> s = s'.
Proof. exact @hotp_unique. Qed.
Print Assumptions C28_code_unique.

Theorem C28_panics_exactly :
  forall (C : Crypto) c now, otp_at c now = Panic <-> tStep c = 0 \/ ~ (0 <= tSize c <= 10).
Proof. exact @otp_at_panics. Qed.
Print Assumptions C28_panics_exactly.

Theorem C28_errors_exactly :
  forall (C : Crypto) c now, otp_at c now = Ret None <-> tStep c <> 0 /\ 0 <= tSize c <= 10 /\ tAlgo c <> 3.
Proof. exact @otp_at_error. Qed.
Print Assumptions C28_errors_exactly.

Theorem C28_zero_digits :
  forall (C : Crypto) c now, tStep c <> 0 -> tSize c = 0 -> tAlgo c = 3 -> otp_at c now = Ret (Some (bs "0")).
Proof. exact @otp_at_zero. Qed.
Print Assumptions C28_zero_digits.

Definition C28_config := Totp (bs "12345678901234567890") 0 30 6 3 (bs "example").
Example C28_nonvacuous :
  tStep C28_config <> 0 /\ 1 <= tSize C28_config <= 10 /\ tAlgo C28_config = 3 /\
  match otp_at (C:=toy) C28_config 59 with Ret (Some s) => length s = 6%nat | _ => False end.
Proof. vm_compute. repeat split; congruence. Qed.

(** C29. *)
Theorem C29_window_exactly :
  forall (C : Crypto) (L : CryptoLaws) c lbl lst otp now g,
    usable_totp c ->
    let a := Auth (bs "TOTP") lbl lst (totp_bytes c) in
    let ok := otp <> lst /\ (totp_code c now otp \/ totp_code c (now - tStep c) otp) in
    (ok -> validate_totp now (Some a) otp g = Ret (VRes (Some (Auth (bs "TOTP") lbl otp (totp_bytes c))) true None g)) /\
    (~ ok -> validate_totp now (Some a) otp g = Ret (VRes (Some a) false (Some EValidationFail) g)).
Proof. exact @validate_totp_usable. Qed.
Print Assumptions C29_window_exactly.

(** The second time is the previous step. *)
Theorem C29_previous_step :
  forall c now, tStart c + tStep c <= now < 2 ^ 64 -> 0 < tStep c -> 0 <= tStart c ->
    totp_counter c (now - tStep c) = totp_counter c now - 1.
Proof. exact totp_counter_step. Qed.
Print Assumptions C29_previous_step.

Theorem C29_histories :
  forall (C : Crypto) (L : CryptoLaws) (A : AuthLib) c lbl lst l,
    usable_totp c ->
    exists lst' oks,
      run (Auth (bs "TOTP") lbl lst (totp_bytes c)) l = Some (Auth (bs "TOTP") lbl lst' (totp_bytes c), oks) /\
      length oks = length l /\
      Forall (fun t => totp_code c (at_now t) (at_pw t) \/ totp_code c (at_now t - tStep c) (at_pw t)) (accepted l oks) /\
      (forall pre x y post, lst :: map at_pw (accepted l oks) = pre ++ x :: y :: post -> x <> y) /\
      lst' = List.last (lst :: map at_pw (accepted l oks)) [].
Proof. exact @run_totp. Qed.
Print Assumptions C29_histories.

Theorem C29_replay_after_other_code :
  forall (C : Crypto) (L : CryptoLaws) (A : AuthLib) c lbl lst cur prev t1 t2 t3 now,
    usable_totp c -> totp_code c now cur -> totp_code c (now - tStep c) prev -> cur <> prev -> lst <> cur ->
    at_pw t1 = cur -> at_pw t2 = prev -> at_pw t3 = cur ->
    at_now t1 = now -> at_now t2 = now -> at_now t3 = now ->
    run (Auth (bs "TOTP") lbl lst (totp_bytes c)) [t1; t2; t3] =
    Some (Auth (bs "TOTP") lbl cur (totp_bytes c), [true; true; true]).
Proof. exact @run_totp_replay. Qed.
Print Assumptions C29_replay_after_other_code.

Theorem C29_import_google :
  forall (C : Crypto) (L : CryptoLaws) prov key now,
    zlen key + zlen prov < 2 ^ 30 ->
    exists s, totp_code (Totp key 0 30 6 3 prov) now s /\
      import_google prov key now = Ret (Auth (bs "TOTP") [] s (totp_bytes (Totp key 0 30 6 3 prov))).
Proof. exact @import_google_ok. Qed.
Print Assumptions C29_import_google.

Definition C29_codes : option (bytes * bytes) :=
  match otp_at (C:=toy) C28_config 59, otp_at (C:=toy) C28_config 29 with
  | Ret (Some a), Ret (Some b) => Some (a, b) | _, _ => None end.
Example C29_nonvacuous :
  usable_totp C28_config /\
  match C29_codes with
  | Some (cur, prev) => cur <> prev /\
      run (C:=toy) (A:=toy_auth) (Auth (bs "TOTP") [] [] (totp_bytes C28_config))
        [Attempt cur 59 []; Attempt prev 59 []; Attempt cur 59 []] =
      Some (Auth (bs "TOTP") [] cur (totp_bytes C28_config), [true; true; true])
  | None => False
  end.
Proof.
  split; [vm_compute; repeat split; congruence|].
  vm_compute. split; [congruence|reflexivity].
Qed.

(** C30. *)
Theorem C30_roundtrip :
  forall c, typed_totp c -> tKey c <> [] -> - 2 ^ 31 <= tSize c < 2 ^ 31 -> 0 <= tAlgo c < 2 ^ 7 ->
    parse_totp (totp_bytes c) = Ret (Some c).
Proof. exact totp_roundtrip. Qed.
Print Assumptions C30_roundtrip.

Theorem C30_empty_key :
  forall c, typed_totp c -> tKey c = [] -> parse_totp (totp_bytes c) = Ret (Some (Totp [] 0 0 0 0 [])).
Proof. exact totp_empty_key. Qed.
Print Assumptions C30_empty_key.

Theorem C30_empty_key_panics :
  forall (C : Crypto) c lbl lst otp now g,
    typed_totp c -> tKey c = [] -> otp <> lst ->
    validate_totp now (Some (Auth (bs "TOTP") lbl lst (totp_bytes c))) otp g = Panic.
Proof. exact @validate_totp_empty_key. Qed.
Print Assumptions C30_empty_key_panics.

Example C30_nonvacuous :
  typed_totp C28_config /\ parse_totp (totp_bytes C28_config) = Ret (Some C28_config) /\
  typed_totp (Totp [] 0 30 6 3 []) /\
  validate_totp (C:=toy) 59 (Some (Auth (bs "TOTP") [] [] (totp_bytes (Totp [] 0 30 6 3 [])))) (bs "123456") [] = Panic.
Proof. vm_compute. repeat split; congruence. Qed.

(** C31. *)
Theorem C31_accepts_exactly :
  forall (C : Crypto) (L : CryptoLaws) au otp g au' g',
    aType au = bs "session" ->
    validate_session (Some au) otp g = Ret (VRes (Some au') true None g') <->
    exists ch next, length ch = 32%nat /\ hex_decode (aLast au) = Some ch /\
      hex_decode otp = Some (response (aSecret au) ch) /\ length next = 32%nat /\ delivers g next g' /\
      au' = Auth (aType au) (aLabel au) (hex_encode next) (aSecret au).
Proof. exact @validate_session_accepts. Qed.
Print Assumptions C31_accepts_exactly.

Theorem C31_otherwise_unchanged :
  forall (C : Crypto) (L : CryptoLaws) au otp g,
    aType au = bs "session" ->
    (exists e g', validate_session (Some au) otp g = Ret (VRes (Some au) false (Some e) g') /\
       ~ (exists ch, length ch = 32%nat /\ hex_decode (aLast au) = Some ch /\
            hex_decode otp = Some (response (aSecret au) ch) /\ ~ starved g 32)) \/
    (exists ch next g', validate_session (Some au) otp g =
         Ret (VRes (Some (Auth (aType au) (aLabel au) (hex_encode next) (aSecret au))) true None g') /\
       length ch = 32%nat /\ hex_decode (aLast au) = Some ch /\
       hex_decode otp = Some (response (aSecret au) ch) /\ length next = 32%nat /\ delivers g next g').
Proof. exact @validate_session_exact. Qed.
Print Assumptions C31_otherwise_unchanged.

Theorem C31_client_accepted :
  forall (C : Crypto) (L : CryptoLaws) au ch g next g' hidn,
    aType au = bs "session" -> length ch = 32%nat -> hex_decode (aLast au) = Some ch ->
    length next = 32%nat -> delivers g next g' ->
    validate_session (Some au) (fst (session_otp (aSecret au) (Slice ch hidn))) g =
    Ret (VRes (Some (Auth (aType au) (aLabel au) (hex_encode next) (aSecret au))) true None g').
Proof. exact @session_client. Qed.
Print Assumptions C31_client_accepted.

(** Session.OTP appends to the caller's slice: its spare capacity may be overwritten. *)
Theorem C31_otp_and_callers_slice :
  forall (C : Crypto) (L : CryptoLaws) shared next,
    fst (session_otp shared next) = hex_encode (response shared (vis next)) /\
    vis (snd (session_otp shared next)) = vis next /\
    ((length (hid next) < 32)%nat -> snd (session_otp shared next) = next) /\
    ((32 <= length (hid next))%nat ->
       hid (snd (session_otp shared next)) = hmac_sha256 shared (vis next) ++ drop 32 (hid next)).
Proof. exact @session_otp_spec. Qed.
Print Assumptions C31_otp_and_callers_slice.

(** KeySession on the client's private key and the server's public one gives
    what the server computes. *)
Theorem C31_key_session_agrees :
  forall (C : Crypto) (L : CryptoLaws) da sa db sb pk pb,
    length da = 32%nat -> length db = 32%nat -> length sa = 32%nat ->
    marshal_private (Some (keypair da sa)) = Ret (Some pk) ->
    marshal_public (kPub (keypair db sb)) = Ret (Some pb) ->
    exists k, key_session pk pb = Ret (Some k) /\
      key_exchange (Some (keypair db sb)) (kPub (keypair da sa)) = Ret k /\ length k = 32%nat.
Proof. exact @key_session_agree. Qed.
Print Assumptions C31_key_session_agrees.

Theorem C31_hex_roundtrip : forall b, hex_decode (hex_encode b) = Some b.
Proof. exact hex_roundtrip. Qed.
Print Assumptions C31_hex_roundtrip.

Example C31_nonvacuous :
  aType C27_session = bs "session" /\ hex_decode (aLast C27_session) = Some (replicate 32 x05) /\
  delivers C27_source (replicate 32 x06) [] /\ ~ starved C27_source 32.
Proof.
  split; [reflexivity|]. split; [vm_compute; reflexivity|]. split; [reflexivity|].
  intros S. apply (S (replicate 32 x06) []); reflexivity.
Qed.

(** C32. *)
Theorem C32_replay_exactly :
  forall (C : Crypto) (L : CryptoLaws) au c0 c otp g next g',
    aType au = bs "session" -> hex_decode (aLast au) = Some c -> length c = 32%nat ->
    hex_decode otp = Some (response (aSecret au) c0) -> length next = 32%nat -> delivers g next g' ->
    (exists au', validate_session (Some au) otp g = Ret (VRes (Some au') true None g')) <-> c = c0.
Proof. exact @session_replay_iff. Qed.
Print Assumptions C32_replay_exactly.

Theorem C32_histories :
  forall (C : Crypto) (L : CryptoLaws) (A : AuthLib) au l c0,
    aType au = bs "session" -> hex_decode (aLast au) = Some c0 ->
    exists au' oks chs fresh lst, run au l = Some (au', oks) /\ length oks = length l /\
      c0 :: fresh = chs ++ [lst] /\
      hex_decode (aLast au') = Some lst /\ aType au' = aType au /\ aSecret au' = aSecret au /\
      Forall2 (fun t f => length f = 32%nat /\ exists g', delivers (at_rng t) f g') (accepted l oks) fresh /\
      Forall2 (fun t ch => hex_decode (at_pw t) = Some (response (aSecret au) ch)) (accepted l oks) chs.
Proof. exact @run_session. Qed.
Print Assumptions C32_histories.

Theorem C32_each_otp_once :
  forall (C : Crypto) (L : CryptoLaws) (A : AuthLib) au l c0 au' oks,
    aType au = bs "session" -> hex_decode (aLast au) = Some c0 -> run au l = Some (au', oks) ->
    (forall fresh, Forall2 (fun t f => exists g', length f = 32%nat /\ delivers (at_rng t) f g') (accepted l oks) fresh ->
       NoDup (c0 :: fresh)) ->
    NoDup (map (fun t => hex_decode (at_pw t)) (accepted l oks)).
Proof. exact @run_session_nodup. Qed.
Print Assumptions C32_each_otp_once.

Definition C32_otp (ch : bytes) : bytes := hex_encode (response (C:=toy) (replicate 32 x09) ch).
Example C32_nonvacuous :
  match run (C:=toy) (A:=toy_auth) C27_session
    [Attempt (C32_otp (replicate 32 x05)) 0 C27_source;
     Attempt (C32_otp (replicate 32 x05)) 0 C27_source;
     Attempt (C32_otp (replicate 32 x06)) 0 (map Some (replicate 32 x07))]
  with Some (_, oks) => oks = [true; false; true] | None => False end.
Proof. vm_compute. reflexivity. Qed.

(** C33. *)
Theorem C33_accepts_exactly :
  forall (A : AuthLib) c lbl lst otp g,
    typed_yk c ->
    let a := Auth (bs "yubikey") lbl lst (yk_bytes c) in
    (exists e, validate_yubikey (Some a) otp g = Ret (VRes (Some a) false (Some e) g) /\
       ~ (otp <> lst /\ exists ctr, yk_otp (yKey c) (yPublic c) otp ctr /\ yCounter c <= ctr)) \/
    (exists ctr, validate_yubikey (Some a) otp g =
         Ret (VRes (Some (Auth (bs "yubikey") lbl otp (yk_bytes (YK (yKey c) ctr (yPublic c))))) true None g) /\
       otp <> lst /\ yk_otp (yKey c) (yPublic c) otp ctr /\ yCounter c <= ctr < 2 ^ 15).
Proof. exact @validate_yubikey_exact. Qed.
Print Assumptions C33_accepts_exactly.

Theorem C33_histories :
  forall (C : Crypto) (A : AuthLib) c lbl lst l,
    typed_yk c ->
    exists au' oks ctrs,
      run (Auth (bs "yubikey") lbl lst (yk_bytes c)) l = Some (au', oks) /\ length oks = length l /\
      au' = Auth (bs "yubikey") lbl (List.last (lst :: map at_pw (accepted l oks)) [])
                 (yk_bytes (YK (yKey c) (List.last (yCounter c :: ctrs) 0) (yPublic c))) /\
      Forall2 (fun t n => yk_otp (yKey c) (yPublic c) (at_pw t) n) (accepted l oks) ctrs /\
      StronglySorted Z.le (yCounter c :: ctrs) /\
      (forall pre x y post, lst :: map at_pw (accepted l oks) = pre ++ x :: y :: post -> x <> y).
Proof. exact @run_yubikey. Qed.
Print Assumptions C33_histories.

Theorem C33_new_yubikey :
  forall (A : AuthLib) key otp,
    (forall a key', new_yubikey key otp = (Some a, key') ->
       key' = replicate (length key) x00 /\ aType a = bs "yubikey" /\ aLast a = otp /\
       exists pub ctr, yk_otp (copy_into 16 key) pub otp ctr /\ aSecret a = yk_bytes (YK key ctr pub)) /\
    (forall key', new_yubikey key otp = (None, key') ->
       key' = key /\ forall pub ctr, ~ yk_otp (copy_into 16 key) pub otp ctr).
Proof. exact @new_yubikey_exact. Qed.
Print Assumptions C33_new_yubikey.

Definition C33_config := YK (replicate 16 x01) 5 [x0a].
(** public identity 0a, key byte 01, counter 7, use *)
Definition C33_otp (use : byte) : bytes := [x0a; x01; x07; x00; use].
Example C33_nonvacuous :
  typed_yk C33_config /\
  match run (C:=toy) (A:=toy_auth) (Auth (bs "yubikey") [] [] (yk_bytes C33_config))
    [Attempt (C33_otp x01) 0 []; Attempt (C33_otp x01) 0 []; Attempt [x0a; x01; x06; x00; x01] 0 []]
  with Some (a, oks) => oks = [true; false; false] /\ aSecret a = yk_bytes (YK (replicate 16 x01) 7 [x0a])
  | None => False end.
Proof. vm_compute. repeat split; congruence. Qed.

(** C34. *)
Theorem C34_alternating_replay :
  forall (C : Crypto) (A : AuthLib) c lbl lst a b n l,
    typed_yk c -> a <> b -> lst <> a ->
    yk_otp (yKey c) (yPublic c) a n -> yk_otp (yKey c) (yPublic c) b n -> yCounter c <= n ->
    Forall (fun p => at_pw (fst p) = a /\ at_pw (snd p) = b) l ->
    exists au', run (Auth (bs "yubikey") lbl lst (yk_bytes c)) (flat_map (fun p => [fst p; snd p]) l) =
      Some (au', replicate (2 * length l) true).
Proof. exact @run_yubikey_replay. Qed.
Print Assumptions C34_alternating_replay.

Theorem C34_what_is_refused :
  forall (A : AuthLib) c lbl lst otp g,
    typed_yk c ->
    otp = lst \/ (forall ctr, ~ yk_otp (yKey c) (yPublic c) otp ctr) \/
      (exists ctr, yk_otp (yKey c) (yPublic c) otp ctr /\ ctr < yCounter c) ->
    exists e, validate_yubikey (Some (Auth (bs "yubikey") lbl lst (yk_bytes c))) otp g =
      Ret (VRes (Some (Auth (bs "yubikey") lbl lst (yk_bytes c))) false (Some e) g).
Proof. exact @yubikey_refuses. Qed.
Print Assumptions C34_what_is_refused.

(** The use counter has no influence on the stored counter. *)
Theorem C34_use_counter_ignored :
  forall lo hi u u', token_counter (Token lo hi u) = token_counter (Token lo hi u').
Proof. exact token_counter_use. Qed.
Print Assumptions C34_use_counter_ignored.

Example C34_nonvacuous :
  yk_otp (A:=toy_auth) (replicate 16 x01) [x0a] (C33_otp x01) 7 /\
  yk_otp (A:=toy_auth) (replicate 16 x01) [x0a] (C33_otp x02) 7 /\ C33_otp x01 <> C33_otp x02.
Proof.
  split; [exists [x01; x07; x00; x01], (Token x07 x00 x01); repeat split|].
  split; [exists [x01; x07; x00; x02], (Token x07 x00 x02); repeat split|]. discriminate.
Qed.

(** C35. *)
Theorem C35_roundtrip : forall c, typed_yk c -> parse_yk (yk_bytes c) = Ret (Some c).
Proof. exact parse_yk_bytes. Qed.
Print Assumptions C35_roundtrip.

Theorem C35_only_16_byte_keys : forall b c, parse_yk b = Ret (Some c) -> length (yKey c) = 16%nat.
Proof. exact parse_yk_key_size. Qed.
Print Assumptions C35_only_16_byte_keys.

Theorem C35_other_keys_rejected :
  forall c, length (yKey c) <> 16%nat -> 0 <= yCounter c < 2 ^ 32 -> zlen (yKey c) + zlen (yPublic c) < 2 ^ 30 ->
    parse_yk (yk_bytes c) = Ret None.
Proof. exact parse_yk_wrong_key. Qed.
Print Assumptions C35_other_keys_rejected.

(** NewYubiKey accepts a key of another length, but what it makes never validates. *)
Theorem C35_wrong_key_makes_useless_authenticator :
  forall (A : AuthLib) key otp a key' pw g,
    new_yubikey key otp = (Some a, key') -> length key <> 16%nat ->
    (forall pub o, yk_parse otp = Some (pub, o) -> zlen key + zlen pub < 2 ^ 30) ->
    exists e, validate_yubikey (Some a) pw g = Ret (VRes (Some a) false (Some e) g).
Proof. exact @wrong_key_useless. Qed.
Print Assumptions C35_wrong_key_makes_useless_authenticator.

Example C35_nonvacuous :
  typed_yk C33_config /\
  match new_yubikey (A:=toy_auth) (replicate 8 x01) (C33_otp x01) with (Some _, _) => True | _ => False end.
Proof. vm_compute. repeat split; congruence. Qed.

(** C71. *)
Theorem C71_creation_exactly :
  forall (A : AuthLib) pw cost g,
    (forall a g', new_password pw cost g = (Some a, g') <->
       (length pw <= 72)%nat /\ exists salt, length salt = 16%nat /\ delivers g salt g' /\
       a = Auth (bs "password") [] [] (bcrypt_hash (if decide (4 <= cost <= 31) then cost else 14) salt (bkey pw))) /\
    (forall g', new_password pw cost g = (None, g') -> (72 < length pw)%nat \/ starved g 16).
Proof. exact @new_password_exact. Qed.
Print Assumptions C71_creation_exactly.

Theorem C71_own_password_accepted :
  forall (A : AuthLib) (AL : AuthLibLaws) pw cost g a g' q h,
    new_password pw cost g = (Some a, g') -> bkey q = bkey pw ->
    validate_password (Some a) q h = Ret (VRes (Some a) false None h).
Proof. exact @password_accepts. Qed.
Print Assumptions C71_own_password_accepted.

(** Only passwords with the same key material, if the hash is injective. *)
Theorem C71_others_rejected :
  forall (A : AuthLib) (AL : AuthLibLaws) pw cost g a g' q h,
    (forall salt k1 k2, length k1 = 72%nat -> length k2 = 72%nat ->
       bcrypt_hash (if decide (4 <= cost <= 31) then cost else 14) salt k1 =
       bcrypt_hash (if decide (4 <= cost <= 31) then cost else 14) salt k2 -> k1 = k2) ->
    new_password pw cost g = (Some a, g') -> bkey q <> bkey pw ->
    validate_password (Some a) q h = Ret (VRes (Some a) false (Some EValidationFail) h).
Proof. exact @password_rejects. Qed.
Print Assumptions C71_others_rejected.

Theorem C71_doubled_password_equivalent : forall pw, bkey (pw ++ [x00] ++ pw) = bkey pw.
Proof. exact bkey_doubled. Qed.
Print Assumptions C71_doubled_password_equivalent.

Theorem C71_long_password_equivalent :
  forall pw rest rest', length pw = 72%nat -> bkey (pw ++ rest) = bkey (pw ++ rest').
Proof. exact bkey_long. Qed.
Print Assumptions C71_long_password_equivalent.

Theorem C71_ordinary_passwords_distinct :
  forall p q, (length p < 72)%nat -> (length q < 72)%nat ->
    Forall (fun x => x <> x00) p -> Forall (fun x => x <> x00) q -> bkey p = bkey q -> p = q.
Proof. exact bkey_inj. Qed.
Print Assumptions C71_ordinary_passwords_distinct.

Definition C71_source : rng := map Some (replicate 16 x06).
Example C71_nonvacuous :
  (forall (cost : Z) salt k1 k2, length k1 = 72%nat -> length k2 = 72%nat ->
     bcrypt_hash (AuthLib:=toy_auth) cost salt k1 = bcrypt_hash (AuthLib:=toy_auth) cost salt k2 -> k1 = k2) /\
  match new_password (A:=toy_auth) (bs "secret") 4 C71_source with
  | (Some a, _) =>
      validate_password (A:=toy_auth) (Some a) (bs "secret") [] = Ret (VRes (Some a) false None []) /\
      validate_password (A:=toy_auth) (Some a) (bs "Secret") [] = Ret (VRes (Some a) false (Some EValidationFail) [])
  | _ => False
  end.
Proof.
  split; [|vm_compute; auto]. intros cost salt k1 k2 _ _ E. cbn in E. injection E as E. apply app_inj_1 in E; tauto.
Qed.

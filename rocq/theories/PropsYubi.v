(** C81: a YubiKey against the code that reads its one-time passwords. *)
From Verif Require Import YubiClaims ToyAuth.
From Coq Require Import Sorted.
Local Open Scope Z_scope.

(** C81. *)
(** *** AES *)
Theorem C81_aes :
  forall k b, length k = 16%nat -> length b = 16%nat ->
    aes_decrypt k (aes_128 k b) = b /\ aes_128 k (aes_decrypt k b) = b.
Proof. intros k b K B. split; [exact (aes_decrypt_cipher k b K B)|exact (aes_cipher_decrypt k b K B)]. Qed.
Print Assumptions C81_aes.

(** The S-box is inversion in the field followed by the affine map. *)
Theorem C81_sbox :
  forall b, subst aes_sbox b = affine (ginv b) /\ subst aes_inv_sbox (affine (ginv b)) = b /\ (b <> x00 -> gmul b (ginv b) = x01).
Proof.
  intros b. destruct (sbox_is b) as (E & E'). split; [exact E|]. split; [exact E'|exact (ginv_right b)].
Qed.
Print Assumptions C81_sbox.

(** FIPS 197, appendix C.1. *)
Theorem C81_fips197 :
  let key := map zb [0; 1; 2; 3; 4; 5; 6; 7; 8; 9; 10; 11; 12; 13; 14; 15] in
  let plain := map zb [0x00; 0x11; 0x22; 0x33; 0x44; 0x55; 0x66; 0x77; 0x88; 0x99; 0xaa; 0xbb; 0xcc; 0xdd; 0xee; 0xff] in
  let cipher := map zb [0x69; 0xc4; 0xe0; 0xd8; 0x6a; 0x7b; 0x04; 0x30; 0xd8; 0xcd; 0xb7; 0x80; 0x70; 0xb4; 0xc5; 0x5a] in
  aes_128 key plain = cipher /\ aes_decrypt key cipher = plain.
Proof. split; vm_compute; reflexivity. Qed.
Print Assumptions C81_fips197.

(** *** Modhex and the checksum *)
Theorem C81_modhex : forall s b, modhex s = Some b <-> s = to_modhex b.
Proof. exact typed_modhex_iff. Qed.
Print Assumptions C81_modhex.

(** Sixteen bytes have a right checksum exactly if they end in the complement of the
    remainder of the others. *)
Theorem C81_checksum :
  forall b x y, crc16 (b ++ [x; y]) = 0xf0b8 <-> [x; y] = le2 (0xffff - iso13239 b).
Proof.
  intros b x y. split.
  - intros H. apply crc16_right in H. unfold with_crc in H. apply app_inv_head in H. exact H.
  - intros ->. apply crc16_with_crc.
Qed.
Print Assumptions C81_checksum.

(** *** One-time passwords *)
(** The one-time passwords of a key (SpecAuth's notion, used by C33 and C34) are what the
    key types. *)
Theorem C81_otp_exactly :
  forall hash cmp key pub otp ctr, length key = 16%nat ->
    yk_otp (A := yubico hash cmp) key pub otp ctr <->
    exists p, wf_press p /\ pr_session p = ctr /\ otp = typed_otp key pub p.
Proof. exact otp_iff. Qed.
Print Assumptions C81_otp_exactly.

(** No two presses type the same. *)
Theorem C81_distinct :
  forall key pub pub' p p', length key = 16%nat -> wf_press p -> wf_press p' ->
    typed_otp key pub p = typed_otp key pub' p' -> pub = pub' /\ p = p'.
Proof. exact (typed_otp_inj (fun _ _ _ => []) (fun _ _ => true)). Qed.
Print Assumptions C81_distinct.

(** *** NewYubiKey and ValidateYubiKey *)
Theorem C81_enrol :
  forall hash cmp key pub p, length key = 16%nat -> wf_press p ->
    new_yubikey (A := yubico hash cmp) key (typed_otp key pub p) =
      (Some (Auth (bs "yubikey") [] (typed_otp key pub p) (yk_bytes (YK key (pr_session p) pub))), replicate 16 x00).
Proof. exact yubikey_enrol. Qed.
Print Assumptions C81_enrol.

Theorem C81_accepts :
  forall hash cmp c lbl lst p g,
    typed_yk c -> wf_press p -> yCounter c <= pr_session p -> typed_otp (yKey c) (yPublic c) p <> lst ->
    validate_yubikey (A := yubico hash cmp) (Some (Auth (bs "yubikey") lbl lst (yk_bytes c))) (typed_otp (yKey c) (yPublic c) p) g =
    Ret (VRes (Some (Auth (bs "yubikey") lbl (typed_otp (yKey c) (yPublic c) p) (yk_bytes (YK (yKey c) (pr_session p) (yPublic c))))) true None g).
Proof. exact yubikey_accepts_typed. Qed.
Print Assumptions C81_accepts.

Theorem C81_accepts_only :
  forall hash cmp c lbl lst otp g r,
    typed_yk c ->
    validate_yubikey (A := yubico hash cmp) (Some (Auth (bs "yubikey") lbl lst (yk_bytes c))) otp g = Ret r -> v_err r = None ->
    otp <> lst /\ exists p, wf_press p /\ otp = typed_otp (yKey c) (yPublic c) p /\ yCounter c <= pr_session p.
Proof. exact yubikey_accepts_only_typed. Qed.
Print Assumptions C81_accepts_only.

Theorem C81_refuses_old_sessions :
  forall hash cmp c lbl lst p g,
    typed_yk c -> wf_press p -> pr_session p < yCounter c ->
    exists e, validate_yubikey (A := yubico hash cmp) (Some (Auth (bs "yubikey") lbl lst (yk_bytes c))) (typed_otp (yKey c) (yPublic c) p) g =
      Ret (VRes (Some (Auth (bs "yubikey") lbl lst (yk_bytes c))) false (Some e) g).
Proof. exact yubikey_refuses_old. Qed.
Print Assumptions C81_refuses_old_sessions.

(** The private identity inside the token is never compared: a press of any other is as good. *)
Theorem C81_private_identity_ignored :
  forall hash cmp c lbl lst p private g,
    typed_yk c -> wf_press p -> yCounter c <= pr_session p -> length private = 6%nat ->
    let q := Press private (pr_session p) (pr_caps p) (pr_time p) (pr_use p) (pr_random p) in
    typed_otp (yKey c) (yPublic c) q <> lst ->
    exists a, validate_yubikey (A := yubico hash cmp) (Some (Auth (bs "yubikey") lbl lst (yk_bytes c))) (typed_otp (yKey c) (yPublic c) q) g =
      Ret (VRes (Some a) true None g).
Proof.
  intros hash cmp c lbl lst p private g T W H P q N. eexists. apply (yubikey_accepts_typed hash cmp c lbl lst q g T).
  - destruct W as (_ & W). split; [exact P|exact W].
  - exact H.
  - exact N.
Qed.
Print Assumptions C81_private_identity_ignored.

(** *** Histories *)
(** A key used as it should be is always let in. *)
Theorem C81_life :
  forall (C : Crypto) hash cmp c lbl lst ps ts,
    typed_yk c -> Forall wf_press ps -> StronglySorted Z.le (yCounter c :: map pr_session ps) ->
    map at_pw ts = map (typed_otp (yKey c) (yPublic c)) ps ->
    (forall pre x y post, lst :: map at_pw ts = pre ++ x :: y :: post -> x <> y) ->
    exists au, run (A := yubico hash cmp) (Auth (bs "yubikey") lbl lst (yk_bytes c)) ts = Some (au, replicate (length ts) true).
Proof. exact yubikey_life. Qed.
Print Assumptions C81_life.

(** Whoever saw two different presses of the session in force can go on using them. *)
Theorem C81_replay :
  forall (C : Crypto) hash cmp c lbl lst p q ts,
    typed_yk c -> wf_press p -> wf_press q -> p <> q -> pr_session p = pr_session q -> yCounter c <= pr_session p ->
    typed_otp (yKey c) (yPublic c) p <> lst ->
    Forall (fun u => at_pw (fst u) = typed_otp (yKey c) (yPublic c) p /\ at_pw (snd u) = typed_otp (yKey c) (yPublic c) q) ts ->
    exists au, run (A := yubico hash cmp) (Auth (bs "yubikey") lbl lst (yk_bytes c)) (flat_map (fun u => [fst u; snd u]) ts) =
      Some (au, replicate (2 * length ts) true).
Proof. exact yubikey_replay. Qed.
Print Assumptions C81_replay.

Definition C81_press (u : byte) : press := Press (replicate 6 x01) 7 false (replicate 3 x02) u (replicate 2 x03).
Example C81_nonvacuous :
  wf_press (C81_press x01) /\ wf_press (C81_press x02) /\ typed_yk (YK (replicate 16 x05) 3 [x0a]) /\
  length (typed_otp (replicate 16 x05) [x0a] (C81_press x01)) = 34%nat /\
  typed_otp (replicate 16 x05) [x0a] (C81_press x01) <> typed_otp (replicate 16 x05) [x0a] (C81_press x02).
Proof.
  assert (forall u, wf_press (C81_press u)) as W by (intros u; split_and!; cbn; reflexivity || lia).
  split; [apply W|]. split; [apply W|]. split; [split_and!; cbn; reflexivity || lia|]. split; [vm_compute; reflexivity|].
  intros X. apply C81_distinct in X as (_ & X); [discriminate X|reflexivity|apply W..].
Qed.

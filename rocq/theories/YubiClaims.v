(** A YubiKey, as Yubico and FIPS 197 describe it, against common/auth's use of the library. *)
From Verif Require Export AesInverse AuthRuns.
From Verif Require Import BytesFacts Base32Facts.
From Coq Require Import Sorted.
Local Open Scope Z_scope.

Lemma ginv_right a : a <> x00 -> gmul a (ginv a) = x01.
Proof.
  intros N. assert (bool_decide (a = x00) || bool_decide (gmul a (ginv a) = x01) = true) as X by (revert a N; intros a _; revert a; apply all_bytes_ok; vm_compute; reflexivity).
  apply orb_true_iff in X as [X|X]; apply bool_decide_eq_true in X; [contradiction|assumption].
Qed.
Lemma sub_byte_def b : sub_byte b = affine (ginv b).
Proof. reflexivity. Qed.
Lemma sbox_is b : subst aes_sbox b = affine (ginv b) /\ subst aes_inv_sbox (affine (ginv b)) = b.
Proof. rewrite <- sub_byte_def, sub_byte_table. split; [reflexivity|apply inv_sub]. Qed.
Lemma typed_modhex_iff s b : modhex s = Some b <-> s = to_modhex b.
Proof. split; [apply modhex_only|intros ->; apply modhex_to]. Qed.

Section Yubi.
Context (C : Crypto) (hash : Z -> bytes -> bytes -> bytes) (cmp : bytes -> bytes -> bool).
Notation lib := (yubico hash cmp).

Lemma otp_iff key pub otp ctr :
  length key = 16%nat ->
  yk_otp (A := lib) key pub otp ctr <-> exists p, wf_press p /\ pr_session p = ctr /\ otp = typed_otp key pub p.
Proof.
  intros K. split; [apply otp_is_typed; assumption|]. intros (p & W & <- & ->). apply typed_is_otp; assumption.
Qed.

Lemma yubikey_accepts_typed c lbl lst p g :
  typed_yk c -> wf_press p -> yCounter c <= pr_session p -> typed_otp (yKey c) (yPublic c) p <> lst ->
  validate_yubikey (A := lib) (Some (Auth (bs "yubikey") lbl lst (yk_bytes c))) (typed_otp (yKey c) (yPublic c) p) g =
  Ret (VRes (Some (Auth (bs "yubikey") lbl (typed_otp (yKey c) (yPublic c) p) (yk_bytes (YK (yKey c) (pr_session p) (yPublic c))))) true None g).
Proof.
  intros T W H N. change (bs "yubikey") with TypeYubiKey. apply (validate_yubikey_accepts (A := lib)); auto.
  apply typed_is_otp; [apply T|assumption].
Qed.

Lemma yubikey_accepts_only_typed c lbl lst otp g r :
  typed_yk c ->
  validate_yubikey (A := lib) (Some (Auth (bs "yubikey") lbl lst (yk_bytes c))) otp g = Ret r -> v_err r = None ->
  otp <> lst /\ exists p, wf_press p /\ otp = typed_otp (yKey c) (yPublic c) p /\ yCounter c <= pr_session p.
Proof.
  intros T V E. change (bs "yubikey") with TypeYubiKey in V.
  destruct (validate_yubikey_exact (A := lib) c lbl lst otp g T) as [(e & X & _)|(ctr & X & N & O & Hc)]; rewrite X in V; injection V as <-; [discriminate|].
  split; [assumption|]. apply otp_is_typed in O as (p & W & <- & ->); [|apply T]. exists p. split_and!; auto. lia.
Qed.

Lemma yubikey_refuses_old c lbl lst p g :
  typed_yk c -> wf_press p -> pr_session p < yCounter c ->
  exists e, validate_yubikey (A := lib) (Some (Auth (bs "yubikey") lbl lst (yk_bytes c))) (typed_otp (yKey c) (yPublic c) p) g =
    Ret (VRes (Some (Auth (bs "yubikey") lbl lst (yk_bytes c))) false (Some e) g).
Proof.
  intros T W H. apply (yubikey_refuses (A := lib)); auto. right; right. exists (pr_session p). split; [|assumption].
  apply typed_is_otp; [apply T|assumption].
Qed.

Lemma new_yubikey_from key pub otp o t :
  length key = 16%nat -> split_otp otp = Some (pub, o) -> open_token key o = Some t ->
  new_yubikey (A := lib) key otp = (Some (Auth (bs "yubikey") [] otp (yk_bytes (YK key (token_counter t) pub))), replicate 16 x00).
Proof.
  intros K S O. unfold new_yubikey. cbn [yk_parse yk_token yubico]. rewrite S, copy_into_id, O by assumption.
  rewrite zero_zeros, K. reflexivity.
Qed.
Lemma yubikey_enrol key pub p :
  length key = 16%nat -> wf_press p ->
  new_yubikey (A := lib) key (typed_otp key pub p) =
    (Some (Auth (bs "yubikey") [] (typed_otp key pub p) (yk_bytes (YK key (pr_session p) pub))), replicate 16 x00).
Proof.
  intros K W. pose proof (split_typed key pub p K W) as S. pose proof (open_typed key p K W) as O.
  rewrite (new_yubikey_from key pub _ _ _ K S O). rewrite token_counter_ctr. cbn [tk_ctr_lo tk_ctr_hi]. rewrite !bz_zb.
  assert (((pr_session p + 32768 * Z.b2z (pr_caps p)) mod 256 + 256 * ((pr_session p + 32768 * Z.b2z (pr_caps p)) / 256 mod 256)) mod 2 ^ 15 = pr_session p) as ->.
  { destruct W as (_ & R & _). destruct (pr_caps p); cbn [Z.b2z]; lia. }
  reflexivity.
Qed.

(** A key used as it should be: no press twice in a row, sessions never going back. *)
Lemma yubikey_life c lbl lst ps ts :
  typed_yk c -> Forall wf_press ps -> StronglySorted Z.le (yCounter c :: map pr_session ps) ->
  map at_pw ts = map (typed_otp (yKey c) (yPublic c)) ps ->
  (forall pre x y post, lst :: map at_pw ts = pre ++ x :: y :: post -> x <> y) ->
  exists au, run (C := C) (A := lib) (Auth (bs "yubikey") lbl lst (yk_bytes c)) ts = Some (au, replicate (length ts) true).
Proof.
  intros T W. revert c lst ts T. induction W as [|p ps Wp W IH]; intros c lst ts T S M D.
  - destruct ts; [|discriminate]. eexists. reflexivity.
  - destruct ts as [|t ts]; [discriminate|]. cbn [map] in M. injection M as Mt M. cbn [run].
    rewrite (validate_yubikey_dispatch (A := lib)) by reflexivity. rewrite Mt.
    inversion S as [|? ? S' F]; subst. inversion F as [|? ? Hp Fp]; subst. inversion S' as [|? ? S'' F']; subst.
    rewrite yubikey_accepts_typed; auto.
    2:{ cbn [map] in D. rewrite Mt in D. intros X. apply (D [] lst (typed_otp (yKey c) (yPublic c) p) (map at_pw ts)); [reflexivity|auto]. }
    cbn [v_auth v_err].
    destruct (IH (YK (yKey c) (pr_session p) (yPublic c)) (typed_otp (yKey c) (yPublic c) p) ts) as (au & R); cbn [yKey yCounter yPublic]; auto.
    { destruct T as (T1 & T2 & T3), Wp as (_ & Wp & _). split_and!; cbn [yKey yCounter yPublic]; auto; lia. }
    { intros pre x y post X. apply (D (lst :: pre) x y post). cbn [map app]. rewrite Mt, X. reflexivity. }
    rewrite R. exists au. reflexivity.
Qed.

(** Two presses of one session are good for ever. *)
Lemma yubikey_replay c lbl lst p q ts :
  typed_yk c -> wf_press p -> wf_press q -> p <> q -> pr_session p = pr_session q -> yCounter c <= pr_session p ->
  typed_otp (yKey c) (yPublic c) p <> lst ->
  Forall (fun u => at_pw (fst u) = typed_otp (yKey c) (yPublic c) p /\ at_pw (snd u) = typed_otp (yKey c) (yPublic c) q) ts ->
  exists au, run (C := C) (A := lib) (Auth (bs "yubikey") lbl lst (yk_bytes c)) (flat_map (fun u => [fst u; snd u]) ts) =
    Some (au, replicate (2 * length ts) true).
Proof.
  intros T W W' N E H L F. pose proof T as (K & _).
  assert (typed_otp (yKey c) (yPublic c) p <> typed_otp (yKey c) (yPublic c) q) as D.
  { intros X. apply N. apply (typed_otp_inj hash cmp (yKey c) (yPublic c) (yPublic c) p q K W W' X). }
  pose proof (typed_is_otp hash cmp _ (yPublic c) p K W) as Op. pose proof (typed_is_otp hash cmp _ (yPublic c) q K W') as Oq.
  rewrite <- E in Oq. revert L F D Op Oq. generalize (typed_otp (yKey c) (yPublic c) p) as a, (typed_otp (yKey c) (yPublic c) q) as b.
  intros a b L F D Op Oq. apply (run_yubikey_replay (A := lib) c lbl lst a b (pr_session p)); auto.
Qed.
End Yubi.

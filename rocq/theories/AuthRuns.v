(** Histories of validations: replays, counters, static passwords. *)
From Verif Require Import AuthFacts.
From Coq Require Import Sorting.
Local Open Scope Z_scope.

Section WithLibs.
Context `{L : CryptoLaws} `{A : AuthLib}.

(** ** TOTP *)
Definition totp_good (c : totp) (t : attempt) : Prop :=
  totp_code c (at_now t) (at_pw t) \/ totp_code c (at_now t - tStep c) (at_pw t).
Lemma totp_code_decidable c now otp : usable_totp c -> totp_code c now otp \/ ~ totp_code c now otp.
Proof.
  intros (_ & _ & S & Z & Al). destruct (otp_at_code c now S Z Al) as (s & _ & Hs).
  destruct (decide (otp = s)) as [->|N]; [auto|]. right. intros H. apply N. eapply hotp_unique; eassumption.
Qed.
Lemma validate_totp_step c lbl lst t :
  usable_totp c ->
  (at_pw t <> lst /\ totp_good c t /\
   validate (at_now t) (Some (Auth (bs "TOTP") lbl lst (totp_bytes c))) (at_pw t) (at_rng t) =
   Ret (VRes (Some (Auth (bs "TOTP") lbl (at_pw t) (totp_bytes c))) true None (at_rng t))) \/
  (~ (at_pw t <> lst /\ totp_good c t) /\
   validate (at_now t) (Some (Auth (bs "TOTP") lbl lst (totp_bytes c))) (at_pw t) (at_rng t) =
   Ret (VRes (Some (Auth (bs "TOTP") lbl lst (totp_bytes c))) false (Some EValidationFail) (at_rng t))).
Proof.
  intros U. rewrite validate_totp_dispatch by reflexivity. unfold totp_good.
  destruct (validate_totp_usable c lbl lst (at_pw t) (at_now t) (at_rng t) U) as [H1 H2]. cbn beta zeta in *.
  destruct (totp_code_decidable c (at_now t) (at_pw t) U) as [K1|K1],
    (totp_code_decidable c (at_now t - tStep c) (at_pw t) U) as [K2|K2], (decide (at_pw t = lst)) as [E|E]; auto 7.
  all: right; split; [tauto|]; apply H2; tauto.
Qed.

Lemma run_totp_replay c lbl lst cur prev t1 t2 t3 now :
  usable_totp c -> totp_code c now cur -> totp_code c (now - tStep c) prev -> cur <> prev -> lst <> cur ->
  at_pw t1 = cur -> at_pw t2 = prev -> at_pw t3 = cur ->
  at_now t1 = now -> at_now t2 = now -> at_now t3 = now ->
  run (Auth (bs "TOTP") lbl lst (totp_bytes c)) [t1; t2; t3] =
  Some (Auth (bs "TOTP") lbl cur (totp_bytes c), [true; true; true]).
Proof.
  intros U Hc Hp N Hl E1 E2 E3 N1 N2 N3. cbn [run].
  destruct (validate_totp_step c lbl lst t1 U) as [(_ & _ & ->)|[K _]].
  2:{ exfalso. apply K. unfold totp_good. rewrite N1, E1. auto. }
  cbn [v_auth v_err].
  destruct (validate_totp_step c lbl (at_pw t1) t2 U) as [(_ & _ & ->)|[K _]].
  2:{ exfalso. apply K. unfold totp_good. rewrite N2, E1, E2. auto. }
  cbn [v_auth v_err].
  destruct (validate_totp_step c lbl (at_pw t2) t3 U) as [(_ & _ & ->)|[K _]].
  2:{ exfalso. apply K. unfold totp_good. rewrite N3, E2, E3. auto. }
  cbn [v_auth v_err]. rewrite E3. reflexivity.
Qed.

(** Consecutive elements differ. *)
Lemma chain_cons {T} (x : T) l :
  (forall y, head l = Some y -> x <> y) ->
  (forall pre a b post, l = pre ++ a :: b :: post -> a <> b) ->
  (forall pre a b post, x :: l = pre ++ a :: b :: post -> a <> b).
Proof.
  intros H1 H2 pre a b post. destruct pre as [|z pre]; cbn.
  - intros [= -> ->]. apply H1. reflexivity.
  - intros [= -> ->]. eapply H2. reflexivity.
Qed.

(** Any history: what is accepted and what is stored. *)
Lemma run_totp c lbl lst l :
  usable_totp c ->
  exists lst' oks, run (Auth (bs "TOTP") lbl lst (totp_bytes c)) l = Some (Auth (bs "TOTP") lbl lst' (totp_bytes c), oks) /\
    length oks = length l /\
    Forall (fun t => totp_code c (at_now t) (at_pw t) \/ totp_code c (at_now t - tStep c) (at_pw t)) (accepted l oks) /\
    (forall pre x y post, lst :: map at_pw (accepted l oks) = pre ++ x :: y :: post -> x <> y) /\
    lst' = List.last (lst :: map at_pw (accepted l oks)) [].
Proof.
  intros U. revert lst. induction l as [|t l IH]; intros lst; cbn [run].
  - exists lst, []. cbn. split_and!; auto. intros [|? [|? ?]] ?? ? [=].
  - destruct (validate_totp_step c lbl lst t U) as [(N & G & ->)|[K ->]]; cbn [v_auth v_err].
    + destruct (IH (at_pw t)) as (lst' & oks & -> & Hl & H1 & H2 & H3). exists lst', (true :: oks).
      cbn [accepted length map]. split_and!; auto.
      * apply chain_cons; auto. intros y [= <-]. auto.
    + destruct (IH lst) as (lst' & oks & -> & Hl & H1 & H2 & H3). exists lst', (false :: oks).
      cbn [accepted length map]. split_and!; auto.
Qed.

(** ** Sessions *)
Lemma session_replay_iff au c0 c otp g next g' :
  aType au = bs "session" -> hex_decode (aLast au) = Some c -> length c = 32%nat ->
  hex_decode otp = Some (response (aSecret au) c0) -> length next = 32%nat -> delivers g next g' ->
  (exists au', validate_session (Some au) otp g = Ret (VRes (Some au') true None g')) <-> c = c0.
Proof.
  intros T Hc Hl Ho Hn D. split.
  - intros [au' H]. apply validate_session_accepts in H as (ch & nx & _ & H2 & H3 & _); auto.
    rewrite Ho in H3. injection H3 as H3. apply response_inj in H3. congruence.
  - intros ->. eexists. apply validate_session_accepts; auto. exists c0, next. split_and!; eauto.
Qed.

(** ** YubiKeys *)
Lemma run_yubikey c lbl lst l :
  typed_yk c ->
  exists au' oks ctrs,
    run (Auth (bs "yubikey") lbl lst (yk_bytes c)) l = Some (au', oks) /\ length oks = length l /\
    au' = Auth (bs "yubikey") lbl (List.last (lst :: map at_pw (accepted l oks)) [])
               (yk_bytes (YK (yKey c) (List.last (yCounter c :: ctrs) 0) (yPublic c))) /\
    Forall2 (fun t n => yk_otp (yKey c) (yPublic c) (at_pw t) n) (accepted l oks) ctrs /\
    StronglySorted Z.le (yCounter c :: ctrs) /\
    (forall pre x y post, lst :: map at_pw (accepted l oks) = pre ++ x :: y :: post -> x <> y).
Proof.
  revert c lst. induction l as [|t l IH]; intros c lst T; cbn [run].
  - exists (Auth (bs "yubikey") lbl lst (yk_bytes c)), [], []. split; [reflexivity|]. cbn [accepted map List.last length]. split_and!; auto.
    + repeat constructor.
    + intros [|? [|? ?]] ?? ? [=].
  - change (bs "yubikey") with TypeYubiKey in *. rewrite validate_yubikey_dispatch by reflexivity.
    destruct (validate_yubikey_exact c lbl lst (at_pw t) (at_rng t) T) as [(e & -> & _)|(ctr & -> & N & O & Hc)]; cbn [v_auth v_err].
    + destruct (IH c lst T) as (au' & oks & ctrs & -> & Hl & H). exists au', (false :: oks), ctrs.
      cbn [accepted length map]. split_and!; try tauto; auto.
    + destruct (IH (YK (yKey c) ctr (yPublic c)) (at_pw t)) as (au' & oks & ctrs & -> & Hl & Ha & F & S & D).
      { destruct T as (T1 & T2 & T3). split_and!; cbn [yKey yCounter yPublic]; auto; lia. }
      cbn [yKey yPublic yCounter] in *. exists au', (true :: oks), (ctr :: ctrs). cbn [accepted length map].
      split_and!; auto.
      * constructor; auto.
        { apply StronglySorted_inv in S as [_ S]. constructor; [lia|]. eapply Forall_impl; [exact S|]. intros x Hx. cbn beta in Hx. eapply Z.le_trans; [apply Hc|exact Hx]. }
      * apply chain_cons; auto. intros y [= <-]. auto.
Qed.

Lemma run_yubikey_replay c lbl lst a b n l :
  typed_yk c -> a <> b -> lst <> a ->
  yk_otp (yKey c) (yPublic c) a n -> yk_otp (yKey c) (yPublic c) b n -> yCounter c <= n ->
  Forall (fun p => at_pw (fst p) = a /\ at_pw (snd p) = b) l ->
  exists au', run (Auth (bs "yubikey") lbl lst (yk_bytes c)) (flat_map (fun p => [fst p; snd p]) l) =
    Some (au', replicate (2 * length l) true).
Proof.
  intros T N Hl Ha Hb Hn F. revert c lst T Hl Ha Hb Hn.
  induction F as [|[t1 t2] l [E1 E2] F IH]; intros c lst T Hl Ha Hb Hn; [eexists; reflexivity|].
  cbn [flat_map fst snd app run] in *. change (bs "yubikey") with TypeYubiKey in *.
  rewrite validate_yubikey_dispatch by reflexivity.
  rewrite (validate_yubikey_accepts c lbl lst (at_pw t1) (at_rng t1) n) by (rewrite ?E1; auto). cbn [v_auth v_err].
  rewrite validate_yubikey_dispatch by reflexivity.
  pose proof (yk_otp_range _ _ _ _ Ha).
  assert (typed_yk (YK (yKey c) n (yPublic c))) as T' by (destruct T as (T1 & T2 & T3); split_and!; cbn [yKey yCounter yPublic]; auto; lia).
  rewrite (validate_yubikey_accepts (YK (yKey c) n (yPublic c)) lbl (at_pw t1) (at_pw t2) (at_rng t2) n) by (rewrite ?E1, ?E2; auto; reflexivity).
  cbn [v_auth v_err yKey yPublic].
  destruct (IH (YK (yKey c) n (yPublic c)) (at_pw t2) T') as [au' R]; cbn [yKey yCounter yPublic]; auto; try congruence; try reflexivity.
  rewrite R. exists au'. cbn [length]. replace (2 * S (length l))%nat with (S (S (2 * length l))) by lia. reflexivity.
Qed.

(** An OTP with a wrong public identity, from an older power-up session, or equal
    to the last one is refused. *)
Lemma yubikey_refuses c lbl lst otp g :
  typed_yk c ->
  otp = lst \/ (forall ctr, ~ yk_otp (yKey c) (yPublic c) otp ctr) \/
    (exists ctr, yk_otp (yKey c) (yPublic c) otp ctr /\ ctr < yCounter c) ->
  exists e, validate_yubikey (Some (Auth (bs "yubikey") lbl lst (yk_bytes c))) otp g =
    Ret (VRes (Some (Auth (bs "yubikey") lbl lst (yk_bytes c))) false (Some e) g).
Proof.
  change (bs "yubikey") with TypeYubiKey. intros T H. destruct (validate_yubikey_exact c lbl lst otp g T) as [(e & -> & _)|(ctr & _ & N & O & Hc)]; [eauto|].
  exfalso. destruct H as [H|[H|(ctr' & O' & H)]].
  - contradiction.
  - eapply H; eauto.
  - rewrite (yk_otp_fun _ _ _ _ _ O' O) in H. lia.
Qed.

(** ** Static passwords *)
Lemma length_bkey pw : length (bkey pw) = 72%nat.
Proof. unfold bkey. rewrite map_length, seq_length. reflexivity. Qed.
Lemma bkey_doubled pw : bkey (pw ++ [x00] ++ pw) = bkey pw.
Proof.
  unfold bkey. apply map_ext. intros i. rewrite !app_length. cbn [length].
  set (m := S (length pw)). replace (S (length pw + (1 + length pw))) with (2 * m)%nat by (unfold m; lia).
  rewrite <- app_assoc. cbn [app]. replace (pw ++ x00 :: pw ++ [x00]) with ((pw ++ [x00]) ++ (pw ++ [x00])) by (rewrite <- app_assoc; reflexivity).
  pose proof (Nat.mod_upper_bound i (2 * m) ltac:(unfold m; lia)) as B.
  assert (length (pw ++ [x00]) = m) as Hm by (rewrite app_length; cbn; unfold m; lia).
  assert (i mod m = (i mod (2 * m)) mod m)%nat as ->.
  { rewrite (Nat.mul_comm 2 m). rewrite (Nat.mod_mul_r i m 2) by (unfold m; lia).
    rewrite <- Nat.add_mod_idemp_r by (unfold m; lia). rewrite (Nat.mul_comm m), Nat.mod_mul by (unfold m; lia).
    rewrite Nat.add_0_r. symmetry. apply Nat.mod_mod. unfold m; lia. }
  revert B. generalize (i mod (2 * m))%nat. intros j B. clearbody m.
  destruct (decide (j < m)%nat) as [H|H].
  - rewrite app_nth1 by (rewrite Hm; exact H). rewrite (Nat.mod_small j m) by assumption. reflexivity.
  - rewrite app_nth2 by (rewrite Hm; lia). rewrite Hm. f_equal.
    replace j with (j - m + 1 * m)%nat at 2 by lia.
    rewrite Nat.mod_add by lia. rewrite Nat.mod_small by lia. reflexivity.
Qed.
Lemma nth_ext_seq (l : bytes) n : (n <= length l)%nat -> map (fun i => nth i l x00) (seq 0 n) = take n l.
Proof.
  revert l. induction n as [|n IH]; intros l H; [reflexivity|].
  destruct l as [|x l]; [cbn in H; lia|]. cbn [seq map take nth]. f_equal.
  rewrite <- seq_shift, map_map. apply IH. cbn in H. lia.
Qed.
Lemma bkey_truncates pw rest : length pw = 72%nat -> bkey (pw ++ rest) = pw.
Proof.
  intros H. unfold bkey.
  transitivity (map (fun i => nth i (pw ++ rest) x00) (seq 0 72)).
  - apply map_ext_in. intros i Hi. apply in_seq in Hi. rewrite Nat.mod_small by (rewrite app_length; lia).
    rewrite app_nth1 by (rewrite app_length; lia). reflexivity.
  - rewrite nth_ext_seq by (rewrite app_length; lia). apply take_app_alt. auto.
Qed.
(** Short passwords without zero bytes give different key material. *)
Lemma bkey_prefix pw : (length pw < 72)%nat -> exists tl, bkey pw = pw ++ x00 :: tl.
Proof.
  intros H. exists (drop (S (length pw)) (bkey pw)).
  rewrite <- (take_drop (S (length pw)) (bkey pw)) at 1.
  replace (pw ++ x00 :: drop (S (length pw)) (bkey pw)) with ((pw ++ [x00]) ++ drop (S (length pw)) (bkey pw)) by (rewrite <- app_assoc; reflexivity).
  f_equal. unfold bkey. rewrite firstn_map.
  assert (take (S (length pw)) (seq 0 72) = seq 0 (S (length pw))) as ->.
  { clear - H. replace 72%nat with (S (length pw) + (71 - length pw))%nat by lia. rewrite seq_app. apply take_app_alt. rewrite seq_length. reflexivity. }
  transitivity (map (fun i => nth i (pw ++ [x00]) x00) (seq 0 (S (length pw)))).
  - apply map_ext_in. intros i Hi. apply in_seq in Hi. rewrite Nat.mod_small by lia. reflexivity.
  - rewrite nth_ext_seq by (rewrite app_length; cbn; lia). rewrite take_ge; auto. rewrite app_length. cbn. lia.
Qed.
Lemma zero_free_prefix (p q : bytes) a b :
  Forall (fun x => x <> x00) p -> Forall (fun x => x <> x00) q -> p ++ x00 :: a = q ++ x00 :: b -> p = q.
Proof.
  intros Hp. revert q. induction Hp as [|x p Hx Hp IH]; intros q Hq E.
  - destruct Hq; cbn in E; [auto|]. congruence.
  - destruct Hq as [|y q Hy Hq]; cbn in E; [congruence|]. injection E as -> E. f_equal. eauto.
Qed.
Lemma bkey_inj p q :
  (length p < 72)%nat -> (length q < 72)%nat -> Forall (fun x => x <> x00) p -> Forall (fun x => x <> x00) q ->
  bkey p = bkey q -> p = q.
Proof.
  intros H1 H2 H3 H4 E. destruct (bkey_prefix p H1) as [a Ea], (bkey_prefix q H2) as [b Eb].
  rewrite Ea, Eb in E. eapply zero_free_prefix; eauto.
Qed.
Context {AL : AuthLibLaws}.

Definition effective_cost (cost : Z) : Z := if decide (4 <= cost <= 31) then cost else 14.
Lemma new_password_exact pw cost g :
  (forall a g', new_password pw cost g = (Some a, g') <->
     (length pw <= 72)%nat /\ exists salt, length salt = 16%nat /\ delivers g salt g' /\
     a = Auth (bs "password") [] [] (bcrypt_hash (effective_cost cost) salt (bkey pw))) /\
  (forall g', new_password pw cost g = (None, g') -> (72 < length pw)%nat \/ starved g 16).
Proof.
  unfold new_password.
  assert ((if decide (cost = 0 \/ cost < 4 \/ cost > 31) then 14 else cost) = effective_cost cost) as ->.
  { unfold effective_cost. repeat case_decide; auto; lia. }
  destruct (decide (72 < length pw)%nat) as [H|H].
  { split; [|auto]. intros a g'. split; [discriminate|]. intros [? _]. lia. }
  destruct (rand_cases 16 g) as [(salt & g1 & -> & Hs & D)|(g1 & -> & S)].
  - split; [|discriminate]. intros a g'. split.
    + intros [= <- <-]. split; [lia|]. eauto.
    + intros (_ & salt' & Hs' & D' & ->). unfold delivers in *. rewrite D in D'.
      apply app_inj_1 in D' as [E ->]; [|rewrite !map_length; congruence]. apply (inj (map Some)) in E. subst. reflexivity.
  - split; [|auto]. intros a g'. split; [discriminate|]. intros (_ & salt & Hs & D & _). exfalso. exact (S salt g' Hs D).
Qed.
Lemma effective_cost_ok cost : 4 <= effective_cost cost <= 31.
Proof. unfold effective_cost. case_decide; lia. Qed.

Lemma password_exact pw cost g a g' q h :
  new_password pw cost g = (Some a, g') ->
  validate_password (Some a) q h = Ret (VRes (Some a) false None h) \/
  validate_password (Some a) q h = Ret (VRes (Some a) false (Some EValidationFail) h) /\ bkey q <> bkey pw.
Proof.
  intros H. apply new_password_exact in H as (Hl & salt & Hs & D & ->).
  unfold validate_password. cbn [aType aSecret]. rewrite decide_False by (intros N; apply N; reflexivity).
  rewrite bcrypt_exact by (auto using effective_cost_ok). case_bool_decide as E; [auto|].
  right. split; auto. congruence.
Qed.
Lemma password_accepts pw cost g a g' q h :
  new_password pw cost g = (Some a, g') -> bkey q = bkey pw ->
  validate_password (Some a) q h = Ret (VRes (Some a) false None h).
Proof. intros H E. destruct (password_exact _ _ _ _ _ q h H) as [?|[_ N]]; [auto|contradiction]. Qed.

(** Under an injective hash: exact acceptance. *)
Lemma password_rejects pw cost g a g' q h :
  (forall salt k1 k2, length k1 = 72%nat -> length k2 = 72%nat ->
     bcrypt_hash (effective_cost cost) salt k1 = bcrypt_hash (effective_cost cost) salt k2 -> k1 = k2) ->
  new_password pw cost g = (Some a, g') -> bkey q <> bkey pw ->
  validate_password (Some a) q h = Ret (VRes (Some a) false (Some EValidationFail) h).
Proof.
  intros I H N. apply new_password_exact in H as (Hl & salt & Hs & D & ->).
  unfold validate_password. cbn [aType aSecret]. rewrite decide_False by (intros K; apply K; reflexivity).
  rewrite bcrypt_exact by (auto using effective_cost_ok). case_bool_decide as E; [|auto].
  exfalso. apply N. eapply I; eauto using length_bkey.
Qed.
End WithLibs.

(** ** Small remaining facts *)
Lemma totp_wrong_type `{C : Crypto} `{A : AuthLib} now a pw g :
  (forall au, a = Some au -> aType au <> bs "TOTP") ->
  validate_totp now a pw g = Ret (VRes a false (Some EInvalidAuthenticator) g).
Proof. intros H. destruct a as [au|]; [|reflexivity]. unfold validate_totp. rewrite decide_True; auto. Qed.
Lemma session_wrong_type `{C : Crypto} a pw g :
  (forall au, a = Some au -> aType au <> bs "session") ->
  validate_session a pw g = Ret (VRes a false (Some EInvalidAuthenticator) g).
Proof. intros H. destruct a as [au|]; [|reflexivity]. unfold validate_session. rewrite decide_True; auto. Qed.
Lemma yubikey_wrong_type `{A : AuthLib} a pw g :
  (forall au, a = Some au -> aType au <> bs "yubikey") ->
  validate_yubikey a pw g = Ret (VRes a false (Some EInvalidAuthenticator) g).
Proof. intros H. destruct a as [au|]; [|reflexivity]. unfold validate_yubikey. rewrite decide_True; auto. Qed.
Lemma password_wrong_type `{A : AuthLib} a pw g :
  (forall au, a = Some au -> aType au <> bs "password") ->
  validate_password a pw g = Ret (VRes a false (Some EInvalidAuthenticator) g).
Proof. intros H. destruct a as [au|]; [|reflexivity]. unfold validate_password. rewrite decide_True; auto. Qed.
Lemma token_counter_use lo hi u u' : token_counter (Token lo hi u) = token_counter (Token lo hi u').
Proof. rewrite !token_counter_ctr. reflexivity. Qed.
Lemma bkey_long pw rest rest' : length pw = 72%nat -> bkey (pw ++ rest) = bkey (pw ++ rest').
Proof. intros H. rewrite !bkey_truncates by assumption. reflexivity. Qed.
Lemma wrong_key_useless `{A : AuthLib} key otp a key' pw g :
  new_yubikey key otp = (Some a, key') -> length key <> 16%nat ->
  (forall pub o, yk_parse otp = Some (pub, o) -> zlen key + zlen pub < 2 ^ 30) ->
  exists e, validate_yubikey (Some a) pw g = Ret (VRes (Some a) false (Some e) g).
Proof.
  unfold new_yubikey. destruct (yk_parse otp) as [[pub o]|]; [|discriminate].
  destruct (yk_token (copy_into 16 key) o) as [t|]; [|discriminate]. intros [= <- _] N B.
  unfold validate_yubikey. cbn [aType aLast aSecret]. rewrite decide_False by congruence.
  destruct (decide (otp = pw)); [eauto|]. rewrite parse_yk_wrong_key; cbn [yKey yCounter yPublic]; auto.
  - cbn. eauto.
  - pose proof (token_counter_range t). lia.
  - eauto.
Qed.

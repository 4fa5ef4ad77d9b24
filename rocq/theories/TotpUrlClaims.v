(** Proofs about TotpUrl.v: what an app makes of the URL. *)
From Verif Require Export TotpUrlFacts.
Local Open Scope Z_scope.

Lemma show_some z : show z <> [].
Proof.
  assert (forall k y b acc, show_fuel k y (b :: acc) <> []) as G.
  { intros k. induction k as [|k IH]; intros y b acc; cbn [show_fuel]; [discriminate|]. destruct (decide _); [discriminate|apply IH]. }
  unfold show. cbn [show_fuel]. destruct (decide _); [discriminate|apply G].
Qed.
Lemma param_carried c secret d n : param (carried c secret d) n =
  if decide (n = bs "digits" /\ tSize c <> 6) then Some d else if decide (n = bs "provider" /\ tProvider c <> []) then Some (tProvider c) else
  if decide (n = bs "secret") then Some secret else None.
Proof.
  unfold param, carried.
  assert (forall A (m : bytes) (a b : A), (if bool_decide (m = n) then a else b) = if decide (n = m) then a else b) as D.
  { intros. case_bool_decide; destruct (decide _); congruence. }
  destruct (decide (tSize c = 6)), (decide (tProvider c = [])); cbn [app List.find fst]; rewrite ?D;
    repeat (destruct (decide _); subst; cbn; try reflexivity; try tauto; try (destruct_and?; congruence)).
Qed.
Lemma param_secret c secret d : param (carried c secret d) (bs "secret") = Some secret.
Proof. rewrite param_carried, decide_False, decide_False, decide_True; [reflexivity|reflexivity|intros [X _]; discriminate X..]. Qed.
Lemma param_digits c secret d : param (carried c secret d) (bs "digits") = if decide (tSize c = 6) then None else Some d.
Proof.
  rewrite param_carried. destruct (decide (tSize c = 6)); [|rewrite decide_True by auto; reflexivity].
  rewrite decide_False, decide_False, decide_False; [reflexivity|discriminate|intros [X _]; discriminate X|tauto].
Qed.
Lemma param_provider c secret d : param (carried c secret d) (bs "provider") = if decide (tProvider c = []) then None else Some (tProvider c).
Proof.
  rewrite param_carried, decide_False by (intros [X _]; discriminate X). destruct (decide (tProvider c = [])); [|rewrite decide_True by auto; reflexivity].
  rewrite decide_False, decide_False; [reflexivity|discriminate|tauto].
Qed.
Section WithCrypto.
Context {C : Crypto} {L : CryptoLaws}.
Lemma app_code_iff c label t s : label <> [] -> 0 <= tSize c -> app_code (generate_url c label) t s <-> hotp (tKey c) (t / 30) (Z.to_nat (tSize c)) s.
Proof.
  intros Nl Hs. destruct (url_reads c label Nl) as (secret & B & U).
  assert (Forall is_digit (show_int (tSize c)) /\ dval (show_int (tSize c)) = tSize c) as [D1 D2].
  { unfold show_int. rewrite decide_False by lia. apply show_spec, Hs. }
  assert (number_param (carried c secret (show_int (tSize c))) (bs "digits") 6 (tSize c)) as Dg.
  { unfold number_param. rewrite param_carried. destruct (decide _) as [|X].
    - split; [exact D1|]. split; [unfold show_int; rewrite decide_False by lia; apply show_some|congruence].
    - rewrite !decide_False by (first [discriminate|intros [X' _]; discriminate]). destruct (decide (tSize c = 6)); [assumption|]. destruct X. auto. }
  split.
  - intros (l' & ps & sec & key & dg & pe & U' & Ps & B' & Pd & Pp & _ & H). destruct (key_uri_det _ _ _ _ _ U U') as [_ <-].
    rewrite param_carried in Ps. rewrite !decide_False in Ps by (intros [X _]; discriminate X). injection Ps as <-.
    assert (key = tKey c) as -> by (apply padded_decodes in B, B'; congruence).
    unfold number_param in Pp. rewrite param_carried in Pp. rewrite !decide_False in Pp by (first [discriminate|intros [X _]; discriminate]). rewrite Pp in H.
    assert (dg = tSize c) as ->; [|exact H]. unfold number_param in *. destruct (param _ (bs "digits")) as [v|]; [|congruence]. destruct Dg as (_ & _ & ->), Pd as (_ & _ & ->). reflexivity.
  - intros H. exists (unslashed label), (carried c secret (show_int (tSize c))), secret, (tKey c), (tSize c), 30.
    split; [exact U|]. split; [rewrite param_carried, !decide_False by (intros [X _]; discriminate X); reflexivity|]. split; [exact B|]. split; [exact Dg|].
    split; [unfold number_param; rewrite param_carried, !decide_False by (first [discriminate|intros [X _]; discriminate]); reflexivity|].
    split; [left; rewrite param_carried, !decide_False by (first [discriminate|intros [X _]; discriminate]); reflexivity|exact H].
Qed.
(** The app's code is the code of the configuration if that counts from the epoch by 30 seconds. *)
Lemma app_agrees c label t s : label <> [] -> usable_totp c -> tStart c = 0 -> tStep c = 30 -> 0 <= t < 2 ^ 64 ->
  app_code (generate_url c label) t s <-> totp_code c t s.
Proof.
  intros Nl (_ & _ & _ & Hs & _) E0 E30 Ht. rewrite app_code_iff by (auto; lia). unfold totp_code, totp_counter. rewrite E0, E30, Z.sub_0_r, Z.mod_small by lia. reflexivity.
Qed.
Lemma app_accepted c label lbl lst t t' s g : label <> [] -> usable_totp c -> tStart c = 0 -> tStep c = 30 -> 0 <= t <= t' -> t' < 2 ^ 64 -> t' / 30 <= t / 30 + 1 ->
  app_code (generate_url c label) t s -> s <> lst ->
  validate_totp t' (Some (Auth (bs "TOTP") lbl lst (totp_bytes c))) s g = Ret (VRes (Some (Auth (bs "TOTP") lbl s (totp_bytes c))) true None g).
Proof.
  intros Nl U E0 E30 H1 H2 H3 A N. destruct (validate_totp_usable c lbl lst s t' g U) as [V _]. apply V. split; [exact N|].
  apply (app_agrees c label t s) in A; auto; [|lia]. unfold totp_code in *. revert A. unfold totp_counter. rewrite E0, E30, !Z.sub_0_r, (Z.mod_small t), (Z.mod_small t') by lia. intros A.
  assert (t' / 30 = t / 30 \/ t' / 30 = t / 30 + 1) as [E|E] by (pose proof (Z.div_le_mono t t' 30); lia).
  - left. rewrite E. exact A.
  - right. rewrite Z.mod_small by lia. replace ((t' - 30) / 30) with (t / 30); [exact A|]. replace (t' - 30) with (t' + (-1) * 30) by lia. rewrite Z.div_add by lia. lia.
Qed.
End WithCrypto.
(** The URL tells key, digits and provider, and the label but for a slash. *)
Lemma url_tells c c' label label' : label <> [] -> label' <> [] -> 0 <= tSize c -> 0 <= tSize c' -> generate_url c label = generate_url c' label' ->
  tKey c = tKey c' /\ tSize c = tSize c' /\ tProvider c = tProvider c' /\ unslashed label = unslashed label'.
Proof.
  intros N N' S S' E. destruct (url_reads c label N) as (sec & B & U). destruct (url_reads c' label' N') as (sec' & B' & U'). pose proof U' as U2. rewrite <- E in U'.
    destruct (key_uri_det _ _ _ _ _ U U') as [El Ep].
    assert (forall n, param (carried c sec (show_int (tSize c))) n = param (carried c' sec' (show_int (tSize c'))) n) as P by (intros; rewrite Ep; reflexivity).
    pose proof (P (bs "secret")) as P1. pose proof (P (bs "digits")) as P2. pose proof (P (bs "provider")) as P3. rewrite !param_secret in P1. rewrite !param_digits in P2. rewrite !param_provider in P3.
    assert (sec = sec') as <-. { congruence. }
    assert (tKey c = tKey c') as Ek by (apply padded_decodes in B, B'; congruence).
    assert (tSize c = tSize c') as Es.
    { destruct (decide (tSize c = 6)), (decide (tSize c' = 6)); try congruence. injection P2 as P2. apply (f_equal dval) in P2. unfold show_int in P2.
      rewrite !decide_False in P2 by lia. rewrite (proj2 (show_spec _ S)), (proj2 (show_spec _ S')) in P2. exact P2. }
    assert (tProvider c = tProvider c') as Er by (destruct (decide (tProvider c = [])), (decide (tProvider c' = [])); congruence).
    split; [exact Ek|]. split; [exact Es|]. split; [exact Er|exact El].
Qed.
Lemma url_slash c label : label <> [] -> head label <> Some x2f -> label <> bs "*" -> generate_url c (x2f :: label) = generate_url c label.
Proof.
  intros N H S. assert (escaped_path (x2f :: label) = x2f :: escaped_path label) as E.
  { unfold escaped_path. rewrite (decide_False (P := label = bs "*")) by exact S. rewrite decide_False by discriminate. reflexivity. }
  assert (exists c p, escaped_path label = c :: p /\ c <> x2f) as (x & p & E2 & Hx).
  { unfold escaped_path. rewrite decide_False by exact S. destruct label as [|d l]; [contradiction|]. cbn [url_escape flat_map andb].
    destruct (path_plain d); cbn [app]; [exists d|exists x25]; eexists; (split; [reflexivity|]); [intros ->; apply H; reflexivity|discriminate]. }
  unfold generate_url, url_string. cbv zeta. rewrite E, E2. rewrite (decide_False (P := x = x2f)) by exact Hx. destruct (decide (x2f = x2f)); [reflexivity|contradiction].
Qed.
(** Start, step and hash function are not told. *)
Lemma url_silent k st st' sp sp' sz al al' pr label : generate_url (Totp k st sp sz al pr) label = generate_url (Totp k st' sp' sz al' pr) label.
Proof. reflexivity. Qed.
(** *** Exporting *)
Section Export.
Context {C : Crypto} {L : CryptoLaws}.
Lemma export_usable draw c lbl lst label : usable_totp c -> exists text, b32_padded (tKey c) text /\
  export_totp draw (Some (Auth (bs "TOTP") lbl lst (totp_bytes c))) label =
  Ret (if decide (label = []) then Some (text, None) else match draw (generate_url c label) with None => None | Some p => Some (text, Some p) end).
Proof.
  intros ((A1 & A2 & A3 & A4 & A5) & K & S & Sz & Al). exists (b32_encode (tKey c)). split; [apply encode_b32|]. unfold export_totp. cbn [aType aSecret].
  rewrite decide_False by (intros X; apply X; reflexivity). rewrite totp_roundtrip; [|split; auto|exact K|lia|lia]. reflexivity.
Qed.
Lemma export_refuses draw a label : (forall x, a = Some x -> aType x <> bs "TOTP") -> export_totp draw a label = Ret None.
Proof. intros H. unfold export_totp. destruct a as [x|]; [|reflexivity]. rewrite decide_True by (apply H; reflexivity). reflexivity. Qed.
Lemma new_user draw prov label now g key g' : length key = 20%nat -> delivers g key g' -> zlen prov < 2 ^ 29 ->
  let c := Totp key 0 30 6 3 prov in
  exists code text, totp_code c now code /\ b32_padded key text /\
    new_google_user draw prov label now g =
    Ret (match (if decide (label = []) then Some None else match draw (generate_url c label) with None => None | Some p => Some (Some p) end) with
         | None => None | Some p => Some (Auth (bs "TOTP") [] code (totp_bytes c), (text, p)) end, g').
Proof.
  intros Lk D Hp c. assert (zlen key = 20) as Zk by (unfold zlen; rewrite Lk; reflexivity).
  destruct (import_google_ok prov key now ltac:(lia)) as (code & Hc & Ei).
  assert (usable_totp c) as U.
  { unfold usable_totp, typed_totp. subst c. cbn. pose proof (zlen_nonneg prov). repeat (split; [lia|]). split; [intros ->; discriminate Lk|]. lia. }
  destruct (export_usable draw c [] code label U) as (text & B & E). exists code, text. split; [exact Hc|]. split; [exact B|].
  unfold new_google_user, new_google. rewrite (rand_delivers 20 g key g' Lk D). cbv zeta. unfold google_totp, SHA1 in *. rewrite Ei. cbn [obind]. fold c. rewrite E. cbn [obind].
  destruct (decide (label = [])); [reflexivity|]. destruct (draw _); reflexivity.
Qed.
Lemma new_user_starved draw prov label now g : starved g 20 -> exists g', new_google_user draw prov label now g = Ret (None, g').
Proof. intros S. destruct (rand_starved 20 g S) as (g' & E). exists g'. unfold new_google_user, new_google. rewrite E. reflexivity. Qed.
End Export.

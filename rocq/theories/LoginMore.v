(** Proofs about Login.v: passwords, codes that are right, and what goes wrong. *)
From Verif Require Export LoginClaims.
Local Open Scope Z_scope.

Section WithLibs.
Context `{L : CryptoLaws} `{AL : AuthLibLaws}.

(** *** A user whose authenticator never changes *)
Lemma answers_fun u t a e a' e' : answers u t a e -> answers u t a' e' -> a = a' /\ e = e'.
Proof. intros (u1 & g1 & E1) (u2 & g2 & E2). rewrite E1 in E2. injection E2 as -> -> -> ->. auto. Qed.
Lemma history_static n u s es s' : (forall t, exists e, answers u t (auth_of <$> uAuth u) e) -> history s es s' -> (forall a, Enrolled n a ∉ es) ->
  known s n (Some u) -> known s' n (Some u) /\
  forall t, Logged t ∈ es -> trName t = n -> (trOk t = true <-> answers u t (auth_of <$> uAuth u) None).
Proof.
  intros St.
  induction 1 as [s|s t es s' Un Ok H IH|s t u0 a e es s' Kn An Ok H IH|s t u0 a u' s1 es s' Kn An Ok Le W H IH|s k a s1 es s' W H IH]; intros Ne Hk.
  - split; [exact Hk|]. intros t X. inversion X.
  - destruct (IH (fun a X => Ne a (elem_of_list_further _ _ _ X)) Hk) as [IH1 IH2]. split; [exact IH1|].
    intros t0 X Et. apply elem_of_cons in X as [[= ->]|X]; [|auto]. subst n. destruct (Un _ Hk).
  - destruct (IH (fun a X => Ne a (elem_of_list_further _ _ _ X)) Hk) as [IH1 IH2]. split; [exact IH1|].
    intros t0 X Et. apply elem_of_cons in X as [[= ->]|X]; [|auto]. subst n. pose proof (known_fun _ _ _ _ Kn Hk) as [= ->].
    rewrite Ok. split; [discriminate|]. intros Y. destruct (answers_fun _ _ _ _ _ _ An Y); discriminate.
  - destruct (decide (trName t = n)) as [En|Nn].
    + rewrite En in *. pose proof (known_fun _ _ _ _ Kn Hk) as [= ->]. destruct (St t) as [e Y].
      destruct (answers_fun _ _ _ _ _ _ An Y) as [-> <-].
      assert (u' = u) as -> by (apply Le; reflexivity).
      apply known_with in W. destruct (IH (fun a X => Ne a (elem_of_list_further _ _ _ X)) W) as [IH1 IH2]. split; [exact IH1|].
      intros t0 X Et. apply elem_of_cons in X as [[= ->]|X]; [|auto]. tauto.
    + apply (known_other _ _ _ _ n) with (v := Some u) in W; [|congruence]. apply W in Hk.
      destruct (IH (fun a X => Ne a (elem_of_list_further _ _ _ X)) Hk) as [IH1 IH2]. split; [exact IH1|].
      intros t0 X Et. apply elem_of_cons in X as [[= ->]|X]; [contradiction|auto].
  - assert (n <> k) as Nn. { intros <-. apply (Ne a). left. }
    apply (known_other _ _ _ _ n) with (v := Some u) in W; [|congruence]. apply W in Hk.
    destruct (IH (fun a X => Ne a (elem_of_list_further _ _ _ X)) Hk) as [IH1 IH2]. split; [exact IH1|].
    intros t0 X Et. apply elem_of_cons in X as [[=]|X]. auto.
Qed.
Definition hash_injective : Prop := forall salt k1 k2, length k1 = 72%nat -> length k2 = 72%nat -> bcrypt_hash 14 salt k1 = bcrypt_hash 14 salt k2 -> k1 = k2.
Lemma password_answers p salt nm t : (length p <= 72)%nat -> length salt = 16%nat ->
  let u := password_user nm (bcrypt_hash 14 salt (bkey p)) in
  (bkey (trPw t) = bkey p -> answers u t (auth_of <$> uAuth u) None) /\
  (hash_injective -> bkey (trPw t) <> bkey p -> answers u t (auth_of <$> uAuth u) (Some EValidationFail)) /\
  exists e, answers u t (auth_of <$> uAuth u) e.
Proof.
  intros Hl Hs u.
  assert (new_password p 0 (map Some salt ++ []) = (Some (Auth (bs "password") [] [] (bcrypt_hash 14 salt (bkey p))), [])) as N.
  { apply new_password_exact. split; [exact Hl|]. exists salt. split; [exact Hs|]. split; reflexivity. }
  unfold answers, u, password_user. cbn [uAuth fmap option_fmap option_map]. unfold auth_of. cbn [lType lLabel lLast lSecret default].
  assert (forall q h, validate (trNow t) (Some (Auth (bs "password") [] [] (bcrypt_hash 14 salt (bkey p)))) q h =
    validate_password (Some (Auth (bs "password") [] [] (bcrypt_hash 14 salt (bkey p)))) q h) as Di by reflexivity.
  split; [|split].
  - intros E. eexists _, _. rewrite Di. exact (password_accepts _ _ _ _ _ _ _ N E).
  - intros I E. eexists _, _. rewrite Di. exact (password_rejects _ 0 _ _ _ _ _ I N E).
  - destruct (password_discipline (Auth (bs "password") [] [] (bcrypt_hash 14 salt (bkey p))) (trPw t) (trRng t)) as [e E].
    exists e. eexists _, _. rewrite Di. exact E.
Qed.
Lemma history_password p salt nm n s es s' : (length p <= 72)%nat -> length salt = 16%nat -> history s es s' -> (forall a, Enrolled n a ∉ es) ->
  known s n (Some (password_user nm (bcrypt_hash 14 salt (bkey p)))) ->
  known s' n (Some (password_user nm (bcrypt_hash 14 salt (bkey p)))) /\
  forall t, Logged t ∈ es -> trName t = n -> (bkey (trPw t) = bkey p -> trOk t = true) /\
    ((forall salt k1 k2, length k1 = 72%nat -> length k2 = 72%nat -> bcrypt_hash 14 salt k1 = bcrypt_hash 14 salt k2 -> k1 = k2) -> trOk t = true -> bkey (trPw t) = bkey p).
Proof.
  intros Hl Hs H Ne Hk. destruct (history_static n (password_user nm (bcrypt_hash 14 salt (bkey p))) s es s') as [H1 H2]; auto.
  { intros t. apply (password_answers p salt nm t Hl Hs). }
  split; [exact H1|]. intros t X Et. specialize (H2 t X Et). destruct (password_answers p salt nm t Hl Hs) as (Y1 & Y2 & _). split.
  - intros E. apply H2, Y1, E.
  - intros I E. destruct (decide (bkey (trPw t) = bkey p)) as [|Nb]; [assumption|].
    apply H2 in E. destruct (answers_fun _ _ _ _ _ _ E (Y2 I Nb)) as [_ X2]. discriminate X2.
Qed.

(** Lines have no white space around them. *)
Lemma read_line_trim i l i' : read_line i = (Some l, i') -> exists r, l = trim_space r.
Proof. unfold read_line. destruct (read_string _ _ _ i) as [[r|] i0]; [|discriminate]. intros [= <- _]. eauto. Qed.
Lemma hears_trim i ls i' : hears i ls i' -> Forall (fun l => exists r, trimmed r l) ls.
Proof.
  induction 1 as [|i l i1 ls i' E H IH]; [constructor|]. constructor; [|exact IH]. apply read_line_trim in E as [r ->]. exists r. apply trim_space_spec.
Qed.
Lemma trim_not_spaced r l : trimmed r l -> (forall w u, white_space w -> l <> w ++ u) /\ (forall w u, white_space w -> l <> u ++ w).
Proof. intros (a & b & _ & _ & _ & H1 & H2). auto. Qed.

(** A password with white space around it can be registered and is never accepted. *)
Lemma spaced_password f qr path rest s w w' n p salt nm : path <> [] -> disk_ok w -> text_input (wIn w) -> on_file (wFs w) path s ->
  (forall salt k1 k2, length k1 = 72%nat -> length k2 = 72%nat -> bcrypt_hash 14 salt k1 = bcrypt_hash 14 salt k2 -> k1 = k2) -> (length p < 72)%nat -> length salt = 16%nat -> (exists ws u, white_space ws /\ (p = ws ++ u \/ p = u ++ ws)) -> x00 ∉ p ->
  known s n (Some (password_user nm (bcrypt_hash 14 salt (bkey p)))) ->
  ends (login_main f qr path (bs "run" :: rest) w) w' ->
  exists es s', history s es s' /\ wOut w' = wOut w ++ concat (map said es) /\
    forall t, Logged t ∈ es -> trName t = n -> x00 ∉ trPw t -> (length (trPw t) < 72)%nat -> trOk t = false.
Proof.
  intros N D T F I Hl Hs (ws & u & Hw & Hp) Np Hk E.
  destruct (main_run f qr path rest s w w' N D T F E) as (es & s' & H & _ & O & Le & (i & Hi) & _).
  exists es, s'. split; [exact H|]. split; [exact O|]. intros t X Et N0 Ht.
  assert (forall a, Enrolled n a ∉ es) as Ne. { intros a Y. rewrite Forall_forall in Le. destruct (Le _ Y) as (? & [=] & _). }
  destruct (history_password p salt nm n s es s' ltac:(lia) Hs H Ne Hk) as [_ Hh]. specialize (Hh t X Et) as [_ Hh].
  destruct (trOk t); [|reflexivity]. specialize (Hh I eq_refl). exfalso.
  assert (trPw t = p) as Ep. { apply bkey_inj; auto; apply Forall_forall; intros x Hx ->; contradiction. }
  apply hears_trim in Hi. rewrite Forall_forall in Hi.
  assert (trPw t ∈ concat (map entered es)) as Hc.
  { apply elem_of_list_In, in_concat. exists (entered (Logged t)). split; [apply in_map, elem_of_list_In; exact X|]. right. left. reflexivity. }
  destruct (Hi _ Hc) as [r Hr]. apply trim_not_spaced in Hr as [Y1 Y2]. rewrite Ep in Y1, Y2. destruct Hp as [->| ->]; [eapply Y1|eapply Y2]; eauto.
Qed.

(** *** A code that is right is admitted *)
Lemma right_code_admitted f qr path rest s w n pw i nm lbl lst c : path <> [] -> disk_ok w -> text_input (wIn w) -> on_file (wFs w) path s ->
  usable_totp c -> n <> [] -> known s n (Some (totp_user nm lbl lst c)) -> hears (wIn w) [n; pw; []] i ->
  pw <> lst -> (let now := nth 0 (wClk w) 0 mod 2 ^ 64 in totp_code c now pw \/ totp_code c (now - tStep c) pw) ->
  exists s' w', login_main (S (S f)) qr path (bs "run" :: rest) w = Done s' w' /\
    wOut w' = wOut w ++ verdict true /\ on_file (wFs w') path s' /\ with_user s n (totp_user nm lbl pw c) s'.
Proof.
  intros N D T F U Nn Hk Hh Np Hc. unfold login_main. rewrite (load_ok _ _ _ N F). cbn [then_].
  rewrite decide_False by discriminate. rewrite decide_True by reflexivity.
  pose proof (login_step path s w N D T F) as S.
  apply hears_fun in Hh as (i1 & R1 & Hh). apply hears_fun in Hh as (i2 & R2 & Hh). apply hears_fun in Hh as (i3 & R3 & _).
  assert (exists s1 w1, login path s w = Done (true, s1) w1) as (s1 & w1 & E1).
  { unfold login. rewrite (w_line_reads _ _ _ R1). rewrite decide_False by exact Nn.
    erewrite w_line_reads by (cbn; exact R2). destruct Hk as (m & -> & Hm). change (default ∅ (Some m)) with m. rewrite Hm.
    cbn [wClk]. destruct (w_now _) as [now w3] eqn:En. 
    destruct (validate_totp_step c lbl lst (Attempt pw (to_u 64 now) (wRng w3)) U) as [(_ & _ & V)|(_ & V)]; cbn [at_pw at_now at_rng] in V;
      change (auth_of <$> uAuth (totp_user nm lbl lst c)) with (Some (Auth (bs "TOTP") lbl lst (totp_bytes c))); rewrite V; cbn [lift then_ v_err v_update v_auth v_rng]; [|eauto].
    unfold write_users. destruct (w_raw_write _ path _) as [ok w4] eqn:W. destruct ok; [cbn; eauto|]. exfalso.
    apply (raw_write_fail _ _ _ _ W N). apply w_now_keeps in En. apply (keeps_disk _ _ En). exact D. }
  rewrite E1 in S. cbn in S. destruct S as (t & H & O & F1 & _ & Ht & D1 & _ & _ & Tm & Tg).
  apply hears_fun in Ht as (j1 & Q1 & Ht). apply hears_fun in Ht as (j2 & Q2 & Ht). inversion Ht as [j Ej|]; subst j2.
  rewrite R1 in Q1. injection Q1 as En <-. rewrite R2 in Q2. injection Q2 as Ep Ei. subst i2.
  destruct (history_totp c lbl nm n s [Logged t] s1 U H ltac:(intros a X; apply elem_of_list_singleton in X; discriminate X) lst Hk) as [K1 K2].
  specialize (K2 [] t [] eq_refl (eq_sym En)). cbn in K2.
  assert (trOk t = true) as Ok. { apply K2. rewrite <- Ep. split; [exact Np|]. rewrite Tm. exact Hc. }
  assert (accepted_as n [Logged t] = [t]) as Ea. { unfold accepted_as, omap, list_omap. rewrite decide_True by auto. reflexivity. }
  rewrite Ea in K1. cbn in K1. rewrite <- Ep in K1.
  cbn [logins]. rewrite E1. cbn [then_ fst snd]. unfold login. subst j. erewrite w_line_reads by exact R3. rewrite decide_True by reflexivity. cbn [then_ fst snd].
  eexists s1, _. split; [reflexivity|]. cbn [wOut wFs]. split; [rewrite O, Ok; reflexivity|]. split; [exact F1|].
  inversion H as [|? ? ? ? Un|? ? ? ? ? ? ? Kn An Ok'|? ? u a u' s2 ? ? Kn An Ok' Lw Wu H'|]; subst; try congruence.
  inversion H'; subst.
  assert (with_user s (trName t) u' s1) as Wu' by exact Wu. pose proof (known_with _ _ _ _ Wu') as Ku.
  pose proof (known_fun _ _ _ _ Ku K1) as [= ->]. exact Wu.
Qed.

(** *** What goes wrong *)
(** The name of a known user is text, and the empty name never asks for a password. *)
Lemma names_text f path s n u : on_file f path s -> known s n u -> utf8_text n.
Proof. intros F (m & -> & H). apply (on_file_good _ _ _ F m eq_refl _ _ H). Qed.
Lemma empty_name_leaves f qr path rest s w i : path <> [] -> on_file (wFs w) path s -> hears (wIn w) [[]] i ->
  exists w', login_main (S f) qr path (bs "run" :: rest) w = Done s w' /\ wOut w' = wOut w /\ wFs w' = wFs w.
Proof.
  intros N F H. unfold login_main. rewrite (load_ok _ _ _ N F). cbn [then_]. rewrite decide_False by discriminate. rewrite decide_True by reflexivity.
  cbn [logins]. unfold login. apply hears_fun in H as (i1 & R & _). rewrite (w_line_reads _ _ _ R). rewrite decide_True by reflexivity.
  cbn [then_ fst snd]. eexists. split; [reflexivity|]. auto.
Qed.
(** A file holding null: nobody can register, nobody gets in. *)
Lemma null_registers_nobody f qr path rest w w' s' : path <> [] -> on_file (wFs w) path None -> login_main f qr path (bs "register" :: rest) w <> Done s' w'.
Proof.
  intros N F E. rewrite (main_register _ _ _ _ None) in E by assumption. unfold register in E.
  destruct (w_line w) as [[n|] w0]; [|discriminate]. destruct (ask_type f qr w0); cbn in E; discriminate.
Qed.
Lemma null_admits_nobody es s' : history None es s' -> s' = None /\ forall t, Logged t ∈ es -> trOk t = false.
Proof.
  intros H. remember None as s eqn:E. induction H as [s|s t es s' Un Ok H IH|s t u0 a e es s' Kn An Ok H IH|s t u0 a u' s1 es s' Kn An Ok Le W H IH|s k a s1 es s' W H IH]; subst s.
  - split; [reflexivity|]. intros t X. inversion X.
  - destruct (IH eq_refl) as [-> IH2]. split; [reflexivity|]. intros t0 X. apply elem_of_cons in X as [[= ->]|X]; auto.
  - destruct Kn as (m & [=] & _).
  - destruct Kn as (m & [=] & _).
  - destruct W as (m & [=] & _).
Qed.
Lemma null_user_crashes f qr path rest s w n pw i : path <> [] -> on_file (wFs w) path s -> n <> [] -> known s n None -> hears (wIn w) [n; pw] i ->
  exists w', login_main (S f) qr path (bs "run" :: rest) w = Crash w' /\ wOut w' = wOut w /\ wFs w' = wFs w.
Proof.
  intros N F Nn (m & -> & Hm) H. unfold login_main. rewrite (load_ok _ _ _ N F). cbn [then_]. rewrite decide_False by discriminate. rewrite decide_True by reflexivity.
  cbn [logins]. unfold login. apply hears_fun in H as (i1 & R1 & H). apply hears_fun in H as (i2 & R2 & _).
  rewrite (w_line_reads _ _ _ R1). rewrite decide_False by exact Nn. erewrite w_line_reads by (cbn; exact R2).
  change (default ∅ (Some m)) with m. rewrite Hm. cbn [then_]. eexists. split; [reflexivity|]. auto.
Qed.
(** A write that is cut short leaves a file that is not JSON: nobody can be loaded any more. *)
Lemma torn_users m p q : users_json (Some m) = p ++ q -> q <> [] -> parse_json p = None.
Proof. intros E Q. unfold users_json, jmap in E. eapply torn_object; [|exact E|exact Q]. apply (int_jmap jluser (Some m)), int_jluser. Qed.
Lemma torn_file m f path k s : (k < length (users_json (Some m)))%nat -> ~ on_file (<[path := take k (users_json (Some m))]> f) path s.
Proof.
  intros Hk [[E _]|(d & j & E & J & _)]; rewrite lookup_insert in E; [discriminate|]. injection E as <-. apply parse_json_exact in J.
  rewrite (torn_users m _ (drop k (users_json (Some m)))) in J; [discriminate|rewrite take_drop; reflexivity|].
  intros X. apply (f_equal length) in X. rewrite drop_length in X. change (length []) with 0%nat in X. lia.
Qed.
Lemma torn_login f qr path rest s w n pw i nm lbl lst c k fates : path <> [] -> text_input (wIn w) -> on_file (wFs w) path s ->
  usable_totp c -> n <> [] -> known s n (Some (totp_user nm lbl lst c)) -> hears (wIn w) [n; pw] i ->
  pw <> lst -> (let now := nth 0 (wClk w) 0 mod 2 ^ 64 in totp_code c now pw \/ totp_code c (now - tStep c) pw) ->
  wFate w = WPartial k :: fates ->
  exists w', login_main (S f) qr path (bs "run" :: rest) w = Fail w' /\ wOut w' = wOut w /\
    (forall s', on_file (wFs w') path s' -> with_user s n (totp_user nm lbl pw c) s') /\
    ((k <= 1)%nat -> forall s', ~ on_file (wFs w') path s').
Proof.
  intros N T F U Nn (m & -> & Hm) H Np Hc Hf. pose proof (T _ _ H) as Tl. pose proof (on_file_good _ _ _ F) as G0. unfold login_main. rewrite (load_ok _ _ _ N F). cbn [then_]. rewrite decide_False by discriminate. rewrite decide_True by reflexivity.
  cbn [logins]. unfold login. apply hears_fun in H as (i1 & R1 & H). apply hears_fun in H as (i2 & R2 & _).
  rewrite (w_line_reads _ _ _ R1). rewrite decide_False by exact Nn. erewrite w_line_reads by (cbn; exact R2).
  change (default ∅ (Some m)) with m. rewrite Hm. destruct (w_now _) as [now w3] eqn:En.
  pose proof (w_now_keeps _ _ _ En) as K. apply w_now_eq in En as (Tm & _ & _ & _ & _ & O). cbn in Tm, O.
  destruct (validate_totp_step c lbl lst (Attempt pw (to_u 64 now) (wRng w3)) U) as [(_ & _ & V)|(X & _)]; cbn [at_pw at_now at_rng] in *.
  2:{ destruct X. split; [exact Np|]. unfold totp_good. cbn. rewrite Tm. exact Hc. }
  change (auth_of <$> uAuth (totp_user nm lbl lst c)) with (Some (Auth (bs "TOTP") lbl lst (totp_bytes c))). rewrite V. cbn [lift then_ v_err v_update v_auth v_rng].
  unfold write_users, w_raw_write. rewrite decide_False by exact N. cbn [wFate set_rng]. rewrite (proj1 (proj2 K)). cbn [wFate]. rewrite Hf. cbn [write_file then_].
  eexists. split; [reflexivity|]. cbn [wOut wFs set_rng]. split; [exact O|].
  change (<[n := ?u]> <$> Some m) with (Some (<[n := u]> m)).
  assert (forall x, aType x = bs "TOTP" -> aLabel x = lbl -> aLast x = pw -> aSecret x = totp_bytes c -> user_back (totp_user nm lbl lst c) (Some x) = totp_user nm lbl pw c) as Ub.
  { intros [ty la ls se] X1 X2 X3 X4. cbn in X1, X2, X3, X4. subst. unfold user_back, totp_user, auth_back. cbn [uAuth uName aType aLabel aLast aSecret lSecret]. rewrite decide_True by reflexivity. reflexivity. }
  rewrite Ub by reflexivity.
  set (m' := <[n := Some (totp_user nm lbl pw c)]> m).
  assert (good_lstore (Some m')) as G. { destruct (G0 m eq_refl n _ Hm) as [Gn Gu]. apply good_insert; [exact G0|exact Gn|].
    assert (utf8_text pw) as Tp by (inversion Tl as [|? ? ? Tl']; inversion Tl'; assumption).
    pose proof (validate_good _ (totp_user nm lbl lst c) pw _ _ Tp (Gu _ eq_refl) V) as Gv. cbn [v_auth] in Gv. rewrite Ub in Gv by reflexivity. exact Gv. }
  split.
  - intros s' F'. exists m. split; [reflexivity|].
    destruct (decide (k < length (users_json (Some m')))%nat) as [Hk|Hk]; [destruct (torn_file _ _ _ _ _ Hk F')|].
    rewrite take_ge in F' by lia.
    rewrite (on_file_fun _ _ _ _ F' (written_good _ _ _ G)). reflexivity.
  - intros Hk s'. apply torn_file. unfold users_json, jmap.
    destruct (print_obj (map (λ kv, (kv.1, jluser kv.2)) (sorted_entries m'))) as [x Ex].
    match goal with |- (_ < length ?y)%nat => replace y with (x7b :: x ++ [x7d]) by (symmetry; exact Ex) end. cbn [length]. rewrite app_length. cbn. lia.
Qed.
(** A name that is not UTF-8 is said to be registered, and no later process knows it. *)
Lemma strange_name f qr path rest s w s' w' : path <> [] -> path <> bs "qr.png" -> on_file (wFs w) path s ->
  login_main f qr path (bs "register" :: rest) w = Done s' w' ->
  exists n a k o, wOut w' = wOut w ++ k ++ o /\ o = said (Enrolled n a) /\ known s' n (Some (LUser n (Some a))) /\
    (~ utf8_text n -> forall s2, on_file (wFs w') path s2 -> unknown s2 n).
Proof.
  intros N Np F E. destruct (register_done f qr path rest s w s' w' N Np F E) as (n & a & ls & ty & k & _ & _ & _ & Wu & O & _).
  exists n, a, k, (said (Enrolled n a)). split; [exact O|]. split; [reflexivity|]. split; [exact (known_with _ _ _ _ Wu)|].
  intros Nu s2 F2 u K. exact (Nu (names_text _ _ _ _ _ F2 K)).
Qed.
(** Over all processes: what the outputs say about a TOTP user and a password user. *)
Lemma lifetime_totp qr path f outs f' s c lbl nm n lst : path <> [] -> path <> bs "qr.png" -> lifetime qr path f outs f' -> on_file f path s ->
  usable_totp c -> known s n (Some (totp_user nm lbl lst c)) ->
  exists ess s', Forall2 tells outs ess /\ on_file f' path s' /\
    ((forall a, Enrolled n a ∉ concat ess) ->
     known s' n (Some (totp_user nm lbl (List.last (lst :: map trPw (accepted_as n (concat ess))) []) c)) /\
     forall pre t post, concat ess = pre ++ Logged t :: post -> trName t = n ->
       (trOk t = true <-> trPw t <> List.last (lst :: map trPw (accepted_as n pre)) [] /\
         (totp_code c (trNow t) (trPw t) \/ totp_code c (trNow t - tStep c) (trPw t)))).
Proof.
  intros N Np Lt F U K. destruct (lifetime_history qr path f outs f' N Np Lt s F) as (ess & s' & T & H & F').
  exists ess, s'. split; [exact T|]. split; [exact F'|]. intros Ne. exact (history_totp c lbl nm n s _ s' U H Ne lst K).
Qed.
Lemma lifetime_password qr path f outs f' s p salt nm n : path <> [] -> path <> bs "qr.png" -> lifetime qr path f outs f' -> on_file f path s ->
  (length p <= 72)%nat -> length salt = 16%nat -> known s n (Some (password_user nm (bcrypt_hash 14 salt (bkey p)))) ->
  exists ess s', Forall2 tells outs ess /\ on_file f' path s' /\
    ((forall a, Enrolled n a ∉ concat ess) ->
     known s' n (Some (password_user nm (bcrypt_hash 14 salt (bkey p)))) /\
     forall t, Logged t ∈ concat ess -> trName t = n -> (bkey (trPw t) = bkey p -> trOk t = true) /\
       ((forall salt k1 k2, length k1 = 72%nat -> length k2 = 72%nat -> bcrypt_hash 14 salt k1 = bcrypt_hash 14 salt k2 -> k1 = k2) ->
        trOk t = true -> bkey (trPw t) = bkey p)).
Proof.
  intros N Np Lt F Hp Hs K. destruct (lifetime_history qr path f outs f' N Np Lt s F) as (ess & s' & T & H & F').
  exists ess, s'. split; [exact T|]. split; [exact F'|]. intros Ne. exact (history_password p salt nm n s _ s' Hp Hs H Ne K).
Qed.

(** *** A damaged file is left alone, and so is everything when no command is given *)
Lemma main_damaged f qr path args w : path <> [] -> (forall s, ~ on_file (wFs w) path s) -> login_main f qr path args w = Fail w.
Proof.
  intros N D. unfold login_main. destruct args as [|cmd args]; [reflexivity|]. rewrite (proj2 (load_exactly path w N) D). reflexivity.
Qed.
Lemma main_usage f qr path args w : (forall rest, args <> bs "register" :: rest /\ args <> bs "run" :: rest) -> login_main f qr path args w = Fail w.
Proof.
  intros N. unfold login_main. destruct args as [|cmd args]; [reflexivity|]. destruct (N args) as [N1 N2].
  destruct (load_else path w) as [[s ->]| ->]; [|reflexivity]. cbn [then_]. rewrite !decide_False by congruence. reflexivity.
Qed.
End WithLibs.

(** Proofs about Login.v: attempts and whole runs. *)
From Verif Require Export LoginFacts.
Local Open Scope Z_scope.

(** *** Input *)
Lemma hears_app i ls i1 ls' i2 : hears i ls i1 -> hears i1 ls' i2 -> hears i (ls ++ ls') i2.
Proof. induction 1 as [|i l i0 ls i1 E H IH]; [auto|]. intros H'. cbn. econstructor; eauto. Qed.
Lemma hears_fun i l ls i' : hears i (l :: ls) i' -> exists i1, read_line i = (Some l, i1) /\ hears i1 ls i'.
Proof. inversion 1; subst. eauto. Qed.
Lemma text_input_rest i ls i' : text_input i -> hears i ls i' -> text_input i'.
Proof.
  intros T H ls' i2 H'. specialize (T _ _ (hears_app _ _ _ _ _ H H')). apply Forall_app in T. tauto.
Qed.
Lemma w_line_hears w l w' : w_line w = (Some l, w') -> hears (wIn w) [l] (wIn w').
Proof. intros E. apply w_line_eq in E as [E _]. econstructor; [exact E|constructor]. Qed.
Lemma w_line_reads w l i : read_line (wIn w) = (Some l, i) -> w_line w = (Some l, World (wFs w) i (wPw w) (wClk w) (wRng w) (wFate w) (wOut w)).
Proof. unfold w_line. intros ->. reflexivity. Qed.
Lemma ascii_text s : Forall (fun b => bz b < 128) s -> utf8_text s.
Proof. induction 1; [constructor|]. apply ascii_cons; assumption. Qed.
Lemma hex_ascii b : Forall (fun c => bz c < 128) (hex_encode b).
Proof.
  induction b as [|x b IH]; cbn; [constructor|]. repeat constructor; try exact IH.
  all: destruct x; vm_compute; reflexivity.
Qed.
Lemma digits_ascii s : Forall is_digit s -> Forall (fun c => bz c < 128) s.
Proof. intros F. eapply Forall_impl; [exact F|]. unfold is_digit. intros; lia. Qed.

(** *** What an accepted attempt leaves *)
Lemma auth_back_same old : auth_back old (auth_of old) = old.
Proof. destruct old as [t l la se]. unfold auth_back, auth_of. cbn [aType aLabel aLast aSecret lType lLabel lLast lSecret]. rewrite decide_True by reflexivity. reflexivity. Qed.
Lemma auth_of_back old a : auth_of (auth_back old a) = a.
Proof.
  destruct a as [t l la se]. unfold auth_back, auth_of. cbn [aType aLabel aLast aSecret lType lLabel lLast lSecret].
  destruct (decide _) as [E|E]; cbn; [rewrite <- E|]; reflexivity.
Qed.
Lemma user_back_same u : user_back u (auth_of <$> uAuth u) = u.
Proof. destruct u as [n [a|]]; unfold user_back; cbn; [rewrite auth_back_same|]; reflexivity. Qed.
Lemma user_back_left u a : (uAuth u = None -> a = None) -> (uAuth u <> None -> a <> None) -> left_with u a (user_back u a).
Proof.
  intros H1 H2. destruct u as [n [old|]]; cbn in *.
  - destruct a as [a|]; [|destruct H2; congruence]. unfold left_with, user_back. cbn [uName uAuth]. split; [reflexivity|].
    cbn. rewrite auth_of_back. split; [reflexivity|]. intros [= <-]. rewrite auth_back_same. reflexivity.
  - rewrite H1 by reflexivity. unfold left_with, user_back. cbn. auto.
Qed.

Lemma totp_bytes_nonempty c : usable_totp c -> totp_bytes c <> [].
Proof. intros U E. apply usable_parse in U. rewrite E in U. discriminate U. Qed.

Section WithLibs.
Context `{L : CryptoLaws} `{A : AuthLib}.

Lemma validate_left now u pw g v : validate now (auth_of <$> uAuth u) pw g = Ret v -> left_with u (v_auth v) (user_back u (v_auth v)).
Proof.
  intros E. apply validate_discipline in E as (_ & _ & U & N). apply user_back_left; destruct (v_update v) eqn:V.
  - intros H. destruct (U eq_refl) as (au & _ & K & _). rewrite H in K. discriminate K.
  - intros H. rewrite N, H by reflexivity. reflexivity.
  - intros _. destruct (U eq_refl) as (_ & au' & _ & K & _). rewrite K. discriminate.
  - intros H. rewrite N by reflexivity. destruct (uAuth u); [discriminate|congruence].
Qed.
Lemma validate_unchanged now u pw g v : validate now (auth_of <$> uAuth u) pw g = Ret v -> v_update v = false -> user_back u (v_auth v) = u.
Proof. intros E H. apply validate_discipline in E as (_ & _ & _ & N). rewrite (N H). apply user_back_same. Qed.
Lemma validate_good now u pw g v : utf8_text pw -> good_luser u -> validate now (auth_of <$> uAuth u) pw g = Ret v -> good_luser (user_back u (v_auth v)).
Proof.
  intros T G E. destruct (v_update v) eqn:V; [|rewrite (validate_unchanged _ _ _ _ _ E V); exact G].
  apply validate_discipline in E as (_ & _ & U & _). destruct (U V) as (au & au' & E1 & E2 & Ty & La & K). clear U.
  destruct u as [n [old|]]; [|discriminate E1]. cbn in E1. injection E1 as <-. rewrite E2. destruct G as [G1 G2]. split; [exact G1|].
  specialize (G2 old eq_refl) as (Ga & Gb & Gc). cbn. intros a [= <-]. unfold good_lauth, auth_back. cbn [lType lLabel lLast].
  rewrite Ty, La. split; [exact Ga|]. split; [exact Gb|].
  destruct K as [(_ & _ & -> & _)|[(_ & -> & _)|(_ & _ & nx & _ & _ & ->)]]; [exact T|exact T|apply ascii_text, hex_ascii].
Qed.
Lemma good_insert m n u : good_lstore (Some m) -> utf8_text n -> good_luser u -> good_lstore (Some (<[n := Some u]> m)).
Proof.
  intros G T Gu m' [= <-]. specialize (G m eq_refl). apply map_Forall_insert_2; [|exact G]. split; [exact T|]. intros u' [= <-]. exact Gu.
Qed.

(** *** One attempt *)
(** The world after the two lines, after the time and after the answer. *)
Definition step_facts (path : bytes) (s : lstore) (w : world) (r : res (bool * lstore)) : Prop :=
  match r with
  | Done (false, s1) w1 => s1 = s /\ keeps w w1 /\ wOut w1 = wOut w /\ hears (wIn w) [[]] (wIn w1)
  | Done (true, s1) w1 => exists t, history s [Logged t] s1 /\ wOut w1 = wOut w ++ verdict (trOk t) /\ on_file (wFs w1) path s1 /\
      trName t <> [] /\ hears (wIn w) [trName t; trPw t] (wIn w1) /\ disk_ok w1 /\ (exists ts, wClk w = ts ++ wClk w1) /\
      only_changes path (wFs w) (wFs w1) /\
      trNow t = to_u 64 (nth 0 (wClk w) 0) /\ trRng t = wRng w
  | Fail w1 | Crash w1 => keeps w w1 /\ wOut w1 = wOut w
  | Spin => False
  end.
Lemma login_step path s w : path <> [] -> disk_ok w -> text_input (wIn w) -> on_file (wFs w) path s -> step_facts path s w (login path s w).
Proof.
  intros N D T F. pose proof (on_file_good _ _ _ F) as G. unfold login.
  destruct (w_line w) as [[name|] w1] eqn:E1.
  2:{ split; [exact (w_line_keeps _ _ _ E1)|]. apply w_line_eq in E1. tauto. }
  pose proof (w_line_keeps _ _ _ E1) as K1. pose proof (w_line_hears _ _ _ E1) as H1. pose proof (w_line_eq _ _ _ E1) as (R1 & P1 & C1 & G1 & O1).
  destruct (decide (name = [])) as [->|Nn]. { cbn. auto. }
  destruct (w_line w1) as [[pw|] w2] eqn:E2.
  2:{ split; [exact (keeps_trans _ _ _ K1 (w_line_keeps _ _ _ E2))|]. apply w_line_eq in E2 as (_ & _ & _ & _ & O2). congruence. }
  pose proof (keeps_trans _ _ _ K1 (w_line_keeps _ _ _ E2)) as K2. pose proof (w_line_hears _ _ _ E2) as H2.
  pose proof (w_line_eq _ _ _ E2) as (R2 & P2 & C2 & G2 & O2).
  pose proof (hears_app _ _ _ _ _ H1 H2) as H12. cbn [app] in H12. clear R1 R2.
  assert (utf8_text name /\ utf8_text pw) as [Tn Tp]. { specialize (T _ _ H12). inversion T as [|? ? X1 X2]; subst. inversion X2; subst. auto. }
  destruct (default ∅ s !! name) as [[u|]|] eqn:Hu.
  - assert (exists m, s = Some m /\ m !! name = Some (Some u)) as (m & -> & Hm).
    { destruct s as [m|]; [exists m; auto|]. exfalso. change ((∅ : gmap bytes (option luser)) !! name = Some (Some u)) in Hu. rewrite lookup_empty in Hu. discriminate. }
    destruct (w_now w2) as [now w3] eqn:E3. pose proof (keeps_trans _ _ _ K2 (w_now_keeps _ _ _ E3)) as K3.
    pose proof (w_now_eq _ _ _ E3) as (Tm & C3 & I3 & P3 & G3 & O3).
    destruct (validate (to_u 64 now) (auth_of <$> uAuth u) pw (wRng w3)) as [v|] eqn:V; cbn [lift then_].
    2:{ split; [exact K3|congruence]. }
    set (u' := user_back u (v_auth v)).
    pose (t := Tried name pw (to_u 64 now) (wRng w3) (bool_decide (v_err v = None))).
    assert (trNow t = to_u 64 (nth 0 (wClk w) 0)) as Kt by (cbn; rewrite Tm; f_equal; congruence).
    assert (trRng t = wRng w) as Kg by (cbn; congruence).
    assert (exists ts, wClk w = ts ++ wClk w3) as Cl by apply K3.
    pose proof (keeps_disk _ _ K3 D) as D3. pose proof (keeps_fs _ _ K3) as F3.
    assert (known (Some m) (trName t) (Some u)) as Ku by (exists m; auto).
    assert (answers u t (v_auth v) (v_err v)) as An. { exists (v_update v), (v_rng v). cbn. rewrite V. destruct v; reflexivity. }
    destruct (v_err v) as [e|] eqn:Ve.
    + pose proof (validate_discipline _ _ _ _ _ V) as (Hf & _). destruct Hf as [Hup Hau]; [congruence|].
      assert (u' = u) as Eu by (apply (validate_unchanged _ _ _ _ _ V Hup)).
      assert (<[name := Some u']> <$> Some m = Some m) as Es. { cbn. rewrite Eu. f_equal. apply insert_id, Hm. }
      cbn [step_facts]. fold u'. rewrite Es. exists t. repeat apply conj.
      * eapply hi_refused; [exact Ku|exact An|reflexivity|constructor].
      * cbn. congruence.
      * cbn. eapply on_file_other; [|exact F]. rewrite F3. reflexivity.
      * exact Nn.
      * cbn. rewrite I3. exact H12.
      * exact D3.
      * exact Cl.
      * intros q Hq. cbn. rewrite F3. reflexivity.
      * exact Kt.
      * exact Kg.
    + assert (trOk t = true) as Tok by reflexivity.
      assert (history (Some m) [Logged t] (Some (<[name := Some u']> m))) as Hi.
      { eapply hi_accepted; [exact Ku|exact An|exact Tok|apply (validate_left _ _ _ _ _ V)|exists m; split; reflexivity|constructor]. }
      change (<[name := Some u']> <$> Some m) with (Some (<[name := Some u']> m)).
      destruct (v_update v) eqn:Vu.
      * unfold write_users. destruct (w_raw_write (set_rng w3 (v_rng v)) path (users_json (Some (<[name:=Some u']> m)))) as [ok w4] eqn:W.
        destruct ok.
        2:{ exfalso. apply (raw_write_fail _ _ _ _ W N). exact D3. }
        cbn [then_ step_facts]. pose proof (raw_write_only _ _ _ _ _ W) as Oc.
        apply raw_write_ok in W as (_ & Wf & Wi & _ & Wc & _ & Wo & Wd). exists t. repeat apply conj.
        -- exact Hi.
        -- rewrite Tok. cbn [wOut w_print]. rewrite Wo. cbn. rewrite O3, O2, O1. reflexivity.
        -- cbn [wFs w_print]. rewrite Wf. apply written_good.
           apply good_insert; [exact G|exact Tn|]. eapply validate_good; [exact Tp| |exact V]. apply (G m eq_refl _ _ Hm). reflexivity.
        -- exact Nn.
        -- cbn. rewrite Wi. cbn. rewrite I3. exact H12.
        -- apply (disk_drop _ _ Wd). exact D3.
        -- cbn. rewrite Wc. exact Cl.
        -- intros q Hq. cbn. rewrite (Oc q Hq). cbn. rewrite F3. reflexivity.
        -- exact Kt.
        -- exact Kg.
      * cbn [then_ step_facts]. assert (u' = u) as Eu by (apply (validate_unchanged _ _ _ _ _ V Vu)).
        assert (<[name := Some u']> m = m) as Es by (rewrite Eu; apply insert_id, Hm).
        rewrite Es in Hi |- *. exists t. repeat apply conj.
        -- exact Hi.
        -- rewrite Tok. cbn [wOut w_print]. cbn. rewrite O3, O2, O1. reflexivity.
        -- cbn. eapply on_file_other; [|exact F]. rewrite F3. reflexivity.
        -- exact Nn.
        -- cbn. rewrite I3. exact H12.
        -- exact D3.
        -- exact Cl.
        -- intros q Hq. cbn. rewrite F3. reflexivity.
        -- exact Kt.
        -- exact Kg.
  - split; [exact K2|congruence].
  - assert (unknown s name) as Un. { intros u (m & -> & Hm). cbn in Hu. congruence. }
    cbn [step_facts]. exists (Tried name pw (to_u 64 (nth 0 (wClk w) 0)) (wRng w) false). repeat apply conj.
    + apply hi_unknown; [exact Un|reflexivity|constructor].
    + cbn. congruence.
    + cbn. eapply on_file_other; [|exact F]. rewrite (keeps_fs _ _ K2). reflexivity.
    + exact Nn.
    + exact H12.
    + exact (keeps_disk _ _ K2 D).
    + apply K2.
    + intros q Hq. cbn. rewrite (keeps_fs _ _ K2). reflexivity.
    + reflexivity.
    + reflexivity.
Qed.

(** *** A whole run *)
Lemma history_app s es s1 es' s2 : history s es s1 -> history s1 es' s2 -> history s (es ++ es') s2.
Proof. induction 1; intros H'; cbn; [exact H'|apply hi_unknown|eapply hi_refused|eapply hi_accepted|eapply hi_enrolled]; eauto. Qed.
Lemma only_changes_trans p f f1 f2 : only_changes p f f1 -> only_changes p f1 f2 -> only_changes p f f2.
Proof. intros A1 A2 q Hq. rewrite (A2 q Hq). apply A1, Hq. Qed.
Lemma keeps_only p w w' : keeps w w' -> only_changes p (wFs w) (wFs w').
Proof. intros K q _. rewrite (keeps_fs _ _ K). reflexivity. Qed.
Lemma logins_run f path : path <> [] -> forall s w w', disk_ok w -> text_input (wIn w) -> on_file (wFs w) path s -> ends (logins f path s w) w' ->
  exists es s', history s es s' /\ on_file (wFs w') path s' /\ wOut w' = wOut w ++ concat (map said es) /\
    Forall login_event es /\ (exists i, hears (wIn w) (concat (map entered es)) i) /\ timed (wClk w) es /\ only_changes path (wFs w) (wFs w') /\
    (forall s1, logins f path s w = Done s1 w' -> s1 = s' /\ hears (wIn w) (concat (map entered es) ++ [[]]) (wIn w')).
Proof.
  intros N. induction f as [|f IH]; intros s w w' D T F E; cbn [logins] in *.
  { destruct E as [[? E]|[E|E]]; discriminate E. }
  pose proof (login_step path s w N D T F) as S. destruct (login path s w) as [[[] s1] w1|w1|w1|] eqn:Lg; cbn [then_ fst snd] in *.
  - destruct S as (t & H & O & F1 & Nn & Hh & D1 & [ts Cl] & Oc & Tm & Tg).
    destruct (IH s1 w1 w' D1 (text_input_rest _ _ _ T Hh) F1 E) as (es & s' & H' & F' & O' & Le & [i Hi] & Td & Oc' & Dn).
    exists (Logged t :: es), s'. repeat apply conj.
    + apply (history_app _ [Logged t] _ _ _ H H').
    + exact F'.
    + rewrite O', O. cbn [map concat said]. rewrite <- app_assoc. reflexivity.
    + constructor; [exists t; auto|exact Le].
    + exists i. cbn [map concat entered]. eapply hears_app; eauto.
    + econstructor; eauto.
    + eapply only_changes_trans; eauto.
    + intros s2 E2. destruct (Dn s2 E2) as [-> Hd]. split; [reflexivity|]. cbn [map concat entered]. rewrite <- app_assoc. eapply hears_app; eauto.
  - destruct S as (-> & K & O & Hh). destruct E as [[s2 E]|[E|E]]; try discriminate E. injection E as <- <-.
    exists [], s. repeat apply conj.
    + constructor.
    + eapply on_file_other; [|exact F]. rewrite (keeps_fs _ _ K). reflexivity.
    + cbn. rewrite app_nil_r. exact O.
    + constructor.
    + exists (wIn w). constructor.
    + constructor.
    + apply keeps_only, K.
    + intros s2 [= <-]. split; [reflexivity|exact Hh].
  - assert (w' = w1) as -> by (destruct E as [[? E]|[E|E]]; congruence). destruct S as [K O].
    exists [], s. repeat apply conj.
    + constructor.
    + eapply on_file_other; [|exact F]. rewrite (keeps_fs _ _ K). reflexivity.
    + cbn. rewrite app_nil_r. exact O.
    + constructor.
    + exists (wIn w). constructor.
    + constructor.
    + apply keeps_only, K.
    + discriminate.
  - assert (w' = w1) as -> by (destruct E as [[? E]|[E|E]]; congruence). destruct S as [K O].
    exists [], s. repeat apply conj.
    + constructor.
    + eapply on_file_other; [|exact F]. rewrite (keeps_fs _ _ K). reflexivity.
    + cbn. rewrite app_nil_r. exact O.
    + constructor.
    + exists (wIn w). constructor.
    + constructor.
    + apply keeps_only, K.
    + discriminate.
  - destruct S.
Qed.
Lemma main_run f qr path rest s w w' : path <> [] -> disk_ok w -> text_input (wIn w) -> on_file (wFs w) path s ->
  ends (login_main f qr path (bs "run" :: rest) w) w' ->
  exists es s', history s es s' /\ on_file (wFs w') path s' /\ wOut w' = wOut w ++ concat (map said es) /\
    Forall login_event es /\ (exists i, hears (wIn w) (concat (map entered es)) i) /\ timed (wClk w) es /\ only_changes path (wFs w) (wFs w') /\
    (forall s1, login_main f qr path (bs "run" :: rest) w = Done s1 w' -> s1 = s' /\ hears (wIn w) (concat (map entered es) ++ [[]]) (wIn w')).
Proof.
  intros N D T F. unfold login_main. rewrite (load_ok _ _ _ N F). cbn [then_].
  rewrite decide_False by discriminate. rewrite decide_True by reflexivity. apply logins_run; assumption.
Qed.

(** *** What decides over a code *)
Lemma known_fun s n u u' : known s n u -> known s n u' -> u = u'.
Proof. intros (m & -> & H) (m' & [= <-] & H'). congruence. Qed.
Lemma known_with s n u s' : with_user s n u s' -> known s' n (Some u).
Proof. intros (m & -> & ->). exists (<[n := Some u]> m). rewrite lookup_insert. auto. Qed.
Lemma known_other s n u s' k v : with_user s n u s' -> k <> n -> known s k v <-> known s' k v.
Proof.
  intros (m & -> & ->) Nk. unfold known. split; intros (m' & [= <-] & H); eexists; (split; [reflexivity|]).
  - rewrite lookup_insert_ne by congruence. exact H.
  - rewrite lookup_insert_ne in H by congruence. exact H.
Qed.
Lemma history_totp c lbl nm n s es s' : usable_totp c -> history s es s' -> (forall a, Enrolled n a ∉ es) -> forall lst,
  known s n (Some (totp_user nm lbl lst c)) ->
  known s' n (Some (totp_user nm lbl (List.last (lst :: map trPw (accepted_as n es)) []) c)) /\
  forall pre t post, es = pre ++ Logged t :: post -> trName t = n ->
    (trOk t = true <-> trPw t <> List.last (lst :: map trPw (accepted_as n pre)) [] /\
      (totp_code c (trNow t) (trPw t) \/ totp_code c (trNow t - tStep c) (trPw t))).
Proof.
  intros U. 
  assert (forall lst t, trName t = n ->
    (answers (totp_user nm lbl lst c) t (Some (Auth (bs "TOTP") lbl (trPw t) (totp_bytes c))) None /\
      trPw t <> lst /\ (totp_code c (trNow t) (trPw t) \/ totp_code c (trNow t - tStep c) (trPw t))) \/
    (answers (totp_user nm lbl lst c) t (Some (Auth (bs "TOTP") lbl lst (totp_bytes c))) (Some EValidationFail) /\
      ~ (trPw t <> lst /\ (totp_code c (trNow t) (trPw t) \/ totp_code c (trNow t - tStep c) (trPw t))))) as Step.
  { intros lst t _. destruct (validate_totp_step c lbl lst (Attempt (trPw t) (trNow t) (trRng t)) U) as [(X1 & X2 & V)|(X1 & V)]; cbn [at_pw at_now at_rng] in *.
    - left. split; [|split; [exact X1|exact X2]]. eexists _, _. exact V.
    - right. split; [|exact X1]. eexists _, _. exact V. }
  assert (forall u t a e a' e', answers u t a e -> answers u t a' e' -> a = a' /\ e = e') as Fun.
  { intros u t a e a' e' (u1 & g1 & E1) (u2 & g2 & E2). rewrite E1 in E2. injection E2 as -> -> -> ->. auto. }
  induction 1 as [s|s t es s' Un Ok H IH|s t u a e es s' Kn An Ok H IH|s t u a u' s1 es s' Kn An Ok Le W H IH|s k a s1 es s' W H IH]; intros Ne lst Hk.
  - cbn. split; [exact Hk|]. intros [|? ?] ? ? ?; discriminate.
  - destruct (IH (fun a X => Ne a (elem_of_list_further _ _ _ X)) lst Hk) as [IH1 IH2].
    assert (trName t <> n) as Nn. { intros <-. exact (Un _ Hk). }
    assert (forall l, accepted_as n (Logged t :: l) = accepted_as n l) as Acc. { intros l. cbn. rewrite decide_False by (intros [? _]; contradiction). reflexivity. }
    rewrite Acc. split; [exact IH1|]. intros pre t0 post E Et. destruct pre as [|e0 pre]; cbn in E.
    + injection E as <- <-. contradiction.
    + injection E as <- ->. rewrite Acc. eapply IH2; eauto.
  - destruct (IH (fun a X => Ne a (elem_of_list_further _ _ _ X)) lst Hk) as [IH1 IH2].
    assert (forall l, accepted_as n (Logged t :: l) = accepted_as n l) as Acc. { intros l. cbn. rewrite decide_False by (intros [_ ?]; congruence). reflexivity. }
    rewrite Acc. split; [exact IH1|]. intros pre t0 post E Et. destruct pre as [|e0 pre]; cbn in E.
    + injection E as <- <-. cbn. rewrite Ok. subst n. pose proof (known_fun _ _ _ _ Kn Hk) as [= ->].
      destruct (Step lst t eq_refl) as [[X _]|[_ X]]; [destruct (Fun _ _ _ _ _ _ An X); discriminate|]. split; [discriminate|]. intros Y. destruct (X Y).
    + injection E as <- ->. rewrite Acc. eapply IH2; eauto.
  - destruct (decide (trName t = n)) as [En|Nn].
    + rewrite En in *. pose proof (known_fun _ _ _ _ Kn Hk) as [= ->].
      destruct (Step lst t En) as [[X G]|[X _]]; [|destruct (Fun _ _ _ _ _ _ An X); discriminate].
      destruct (Fun _ _ _ _ _ _ An X) as [-> _].
      assert (u' = totp_user nm lbl (trPw t) c) as ->.
      { destruct Le as (L1 & L2 & L3). destruct u' as [n' [[ty la ls se]|]]; [|discriminate L2]. cbn in L1, L2. injection L2 as -> -> -> Ls. subst n'.
        unfold totp_user. destruct se as [b|]; cbn in Ls; [subst b; reflexivity|].
        exfalso. apply (totp_bytes_nonempty c U). congruence. }
      apply known_with in W. destruct (IH (fun a X => Ne a (elem_of_list_further _ _ _ X)) _ W) as [IH1 IH2].
      assert (forall l, accepted_as n (Logged t :: l) = t :: accepted_as n l) as Acc. { intros l. cbn. rewrite decide_True by auto. reflexivity. }
      rewrite Acc. split; [exact IH1|]. intros pre t0 post E Et. destruct pre as [|e0 pre]; cbn in E.
      * injection E as <- <-. cbn. rewrite Ok. tauto.
      * injection E as <- ->. rewrite Acc. cbn [map]. 
        change (List.last (lst :: trPw t :: map trPw (accepted_as n pre)) []) with (List.last (trPw t :: map trPw (accepted_as n pre)) []). eapply IH2; eauto.
    + apply (known_other _ _ _ _ n) with (v := Some (totp_user nm lbl lst c)) in W; [|congruence]. apply W in Hk.
      destruct (IH (fun a X => Ne a (elem_of_list_further _ _ _ X)) lst Hk) as [IH1 IH2].
      assert (forall l, accepted_as n (Logged t :: l) = accepted_as n l) as Acc. { intros l. cbn. rewrite decide_False by (intros [? _]; contradiction). reflexivity. }
      rewrite Acc. split; [exact IH1|]. intros pre t0 post E Et. destruct pre as [|e0 pre]; cbn in E.
      * injection E as <- <-. contradiction.
      * injection E as <- ->. rewrite Acc. eapply IH2; eauto.
  - assert (n <> k) as Nn. { intros <-. apply (Ne a). left. }
    apply (known_other _ _ _ _ n) with (v := Some (totp_user nm lbl lst c)) in W; [|congruence]. apply W in Hk.
    destruct (IH (fun a X => Ne a (elem_of_list_further _ _ _ X)) lst Hk) as [IH1 IH2].
    cbn [accepted_as omap]. split; [exact IH1|]. intros pre t0 post E Et. destruct pre as [|e0 pre]; cbn in E; [discriminate|].
    injection E as <- ->. change (accepted_as n (Enrolled k a :: pre)) with (accepted_as n pre). eapply (IH2 pre); eauto.
Qed.
End WithLibs.

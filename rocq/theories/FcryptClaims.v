(** Proofs about Fcrypt.v: whole runs of the command. *)
From Verif Require Export FcryptFacts.
Local Open Scope Z_scope.

#[global] Instance fcmd_eq : EqDecision fcmd.
Proof. solve_decision. Defined.
Definition cfg_of (l : fflags) (a : bool) : fcfg := FCfg (lArgs l) (lLabel l) a.
Lemma with_ks_time_at s t : with_ks_time s t = at_time s t.
Proof. reflexivity. Qed.
Lemma choose_check l k a : chosen l = Some (k, a) -> lCheck l = bool_decide (k = FCheck).
Proof.
  unfold chosen. destruct (lCheck l); [intros [= <- _]; reflexivity|].
  repeat match goal with |- context [if ?b then _ else _] => destruct b end; intros [= <- _]; reflexivity.
Qed.
Lemma should_write_iff k : should_write k = true <-> mutates k.
Proof. unfold mutates. destruct k; cbn; split; try (intros; discriminate); auto; intros [|[|]]; congruence. Qed.

Section WithCrypto.
Context {C : Crypto} {L : CryptoLaws}.

Definition must (k : fcmd) (s : kstore) : bool := should_write k || bool_decide (k = FCheck) && bool_decide (ksExport s = None).
Definition finish (l : fflags) (k : fcmd) (m : bool) (s : kstore) (rep : report) (w : world) : res report :=
  let* (s, w) := if m || negb (w_exists w (lPath l)) then let '(now, w) := w_now w in fc_write (lPath l) (with_ks_time s now) w else Done s w in
  let* (_, w) := if needs_unlock k then lift (ks_lock s) w else Done (false, s, None) w in
  Done rep w.
Lemma main_eq f o l k a s w : chosen l = Some (k, a) -> (required_argc k <= length (lArgs l))%nat -> key_file (wFs w) (lPath l) s ->
  fc_main f o l w =
  let* (s1, w1) := if needs_unlock k then fc_unlock s (tick (tick w)) else Done s (tick (tick w)) in
  let* (r, w2) := fc_run f o k s1 (cfg_of l a) w1 in
  finish l k (must k s) (fst r) (snd r) w2.
Proof.
  intros Hc Ha K. unfold fc_main. rewrite Hc. destruct (decide _); [lia|]. rewrite (fc_load_ok _ _ _ K). cbn [then_]. rewrite (choose_check _ _ _ Hc). fold (must k s).
  destruct (if needs_unlock k then fc_unlock s (tick (tick w)) else Done s (tick (tick w))) as [s1 w1|w1|w1|]; cbn [then_]; try reflexivity.
  unfold cfg_of. destruct (fc_run f o k s1 _ w1) as [[s2 rep] w2|w2|w2|]; reflexivity.
Qed.

(** *** The last step *)
Lemma lock_total s : go_priv s -> exists b s' z, ks_lock s = Ret (b, s', z) /\ go_priv s' /\ same_public s s'.
Proof.
  intros G. destruct (lock_exact s G) as (A & B & D). destruct (ks_valid_dec s G) as [[_ H]|[_ H]].
  - destruct (ksLocked s) eqn:E; [do 3 eexists; split; [apply B; auto|split; [exact G|unfold same_public; auto 7]]|].
    destruct (D H eq_refl) as (k & z & _ & _ & ->). do 3 eexists. split; [reflexivity|]. split; [intros k' [=]|unfold same_public; cbn; auto 7].
  - do 3 eexists. split; [apply A, H|]. split; [exact G|unfold same_public; auto 7].
Qed.
Lemma dump_total s : go_priv s -> exists s', dump_keystore s = Ret (ks_dump s, s') /\ go_priv s'.
Proof.
  intros G. destruct (lock_total s G) as (b & s' & z & E & G' & Sp). exists s'. split; [|exact G'].
  unfold dump_keystore. rewrite E. cbn [obind]. change (print (jkstore s')) with (print (jkstore s')).
  rewrite (dump_public _ _ Sp), dump_json. reflexivity.
Qed.
Lemma finish_quiet l k s rep w : go_priv s -> lPath l <> [] -> (exists d, wFs w !! lPath l = Some d) -> finish l k false s rep w = Done rep w.
Proof.
  intros G N [d F]. unfold finish, w_exists, exists_. rewrite F, bool_decide_eq_false_2 by auto. cbn [negb andb orb fst then_].
  destruct (needs_unlock k); [|reflexivity]. destruct (lock_total s G) as (b & s' & z & -> & _). reflexivity.
Qed.
Lemma finish_writes l k s rep w : go_priv s -> finish l k true s rep w =
  let '(ok, w') := w_raw_write (tick w) (lPath l) (ks_dump (at_time s (clock w))) in if ok then Done rep w' else Fail w'.
Proof.
  intros G. unfold finish. cbn [orb]. rewrite w_now_tick, with_ks_time_at. unfold fc_write.
  assert (go_priv (at_time s (clock w))) as G2 by exact G. destruct (dump_total _ G2) as (s' & -> & G'). cbn [lift then_ fst snd].
  destruct (w_raw_write _ _ _) as [[] w']; cbn [then_]; [|reflexivity]. destruct (needs_unlock k); [|reflexivity].
  destruct (lock_total s' G') as (b & s2 & z & -> & _). reflexivity.
Qed.

(** *** What a run does to the store in memory *)
Lemma then_inv {A B} (e : res A) (k : A -> world -> res B) b w' : then_ e k = Done b w' -> exists a w, e = Done a w /\ k a w = Done b w'.
Proof. apply then_done. Qed.
Lemma put_out_done r path w u w' : put_out r path w = Done u w' -> exists out, r = Some out /\ w_write w path out = (true, w').
Proof. unfold put_out. destruct r as [out|]; [|discriminate]. destruct (w_write w path out) as [[] w1] eqn:E; intros [= _ <-]. eauto. Qed.
Lemma read_eq w p r w' : w_read w p = (r, w') -> wClk w' = wClk w /\ wPw w' = wPw w /\ wOut w' = wOut w /\ wRng w' = wRng w.
Proof. unfold w_read. destruct (decide _); [destruct (read_all _)|]; intros [= _ <-]; auto. Qed.
Lemma import_done o s c w s' w' : fc_import o s c w = Done s' w' ->
  exists data w1 label w2 v who, w_read w (farg 0 c) = (Some data, w1) /\ ask_label c w1 = (Some label, w2) /\
    import_verified_key (foOne o) (foTwo o) (clock w2) s label data = Ret (true, s') /\ parse_verified_key data = Some v /\
    find_public (foThree o) s' (vSigner v) = Ret (Some who) /\ w' = w_print (tick w2) (bs "Imported public key signed by '" ++ who ++ bs "'." ++ [x0a]).
Proof.
  unfold fc_import. destruct (w_read w (farg 0 c)) as [[data|] w1] eqn:E; [|discriminate]. destruct (ask_label c w1) as [[label|] w2] eqn:E2; [|discriminate].
  rewrite w_now_tick. destruct (import_verified_key _ _ _ _ _ _) as [[[] s1]|] eqn:E3; cbn [lift then_ negb]; try discriminate.
  destruct (parse_verified_key data) as [v|] eqn:E4; [|discriminate]. destruct (find_public _ _ _) as [[who|]|] eqn:E5; cbn [lift then_]; try discriminate.
  intros [= -> <-]. exists data, w1, label, w2, v, who. auto 10.
Qed.
Lemma remove_done s c w s' w' : fc_remove s c w = Done s' w' <->
  farg 0 c <> bs "self" /\ ks_has s (farg 0 c) = true /\ s' = remove_key s (farg 0 c) /\ w' = w.
Proof.
  unfold fc_remove. destruct (decide (farg 0 c = self)) as [E|E].
  - split; [discriminate|]. intros [N _]. contradiction.
  - destruct (ks_has s (farg 0 c)); cbn [negb]; (split; [try discriminate|]); [intros [= <- <-]; auto|intros (_ & _ & -> & ->); reflexivity|intros (_ & [=] & _)].
Qed.
Definition uimport_text (own : bool) (v : vkey) : bytes :=
  (if own then bs "Key is self-signed." else bs "Unrecognised signature.") ++ [x0a] ++ fingerprint_line (vPublic v).
Lemma uimport_done f s c w s' w' : fc_uimport f s c w = Done s' w' ->
  exists data w1 v own w2 sure, w_read w (farg 0 c) = (Some data, w1) /\ parse_verified_key data = Some v /\ is_self_signed v = Ret own /\
    ask_sure f (w_print w1 (uimport_text own v)) = Done sure w2 /\
    (sure = None /\ s' = s /\ w' = w2 \/
     sure = Some true /\ exists label w3, ask_label c w2 = (Some label, w3) /\ ks_add (clock w3) (clock (tick w3)) s label (vPublic v) None = Ret (true, s') /\ w' = tick (tick w3)).
Proof.
  unfold fc_uimport. destruct (w_read w (farg 0 c)) as [[data|] w1] eqn:E; [|discriminate]. destruct (parse_verified_key data) as [v|] eqn:E2; [|discriminate].
  destruct (is_self_signed v) as [own|] eqn:E3; cbn [lift then_]; [|discriminate]. cbv zeta. fold (uimport_text own v). intros H.
  apply then_inv in H as (sure & w2 & E4 & H). exists data, w1, v, own, w2, sure. split; [reflexivity|]. split; [exact E2|]. split; [exact E3|]. split; [exact E4|].
  destruct sure as [[]|]; [|discriminate|injection H as <- <-; auto]. right. split; [reflexivity|].
  destruct (ask_label c w2) as [[label|] w3] eqn:E5; [|discriminate]. rewrite !w_now_tick in H.
  destruct (ks_add _ _ _ _ _ _) as [[[] s1]|] eqn:E6; cbn [lift then_ fst snd] in H; try discriminate H. injection H as <- <-. eauto 6.
Qed.
Lemma silent_done r s' rep w' : silent r = Done (s', rep) w' -> r = Done s' w' /\ rep = RNone.
Proof. unfold silent. destruct r; cbn [then_]; intros H; try discriminate H. injection H as <- <- <-. auto. Qed.
Lemma import_key_inv o1 o2 now s l data b s' : import_verified_key o1 o2 now s l data = Ret (b, s') ->
  b = false /\ s' = s \/ exists ty d, pem_decode data = Some (ty, d) /\ ty = VerifiedKeyType /\ import_verified o1 o2 now s l d = Ret (b, s').
Proof.
  unfold import_verified_key. destruct (pem_decode data) as [[ty d]|]; [|intros [= <- <-]; auto].
  destruct (decide (ty <> VerifiedKeyType)) as [N|N]; [intros [= <- <-]; auto|]. intros H. right. exists ty, d. split; [reflexivity|]. split; [|exact H].
  destruct (decide (ty = VerifiedKeyType)); [assumption|contradiction].
Qed.
Lemma import_priv o1 o2 now s l data b s' : import_verified_key o1 o2 now s l data = Ret (b, s') -> ksPriv s' = ksPriv s.
Proof.
  intros H. apply import_key_inv in H as [[_ ->]|(ty & d & _ & _ & H)]; [reflexivity|].
  apply import_inv in H as [[_ ->]|(_ & _ & _ & _ & ? & ? & ? & _ & _ & _ & _ & _ & m & _ & ->)]; reflexivity.
Qed.
Lemma add_priv n1 n2 s l peer md b s' : ks_add n1 n2 s l peer md = Ret (b, s') -> ksPriv s' = ksPriv s.
Proof.
  intros H. apply add_inv in H as [[_ ->]|(_ & _ & _ & _ & _ & _ & ? & ? & ? & _ & _ & _ & _ & _ & m & _ & ->)]; reflexivity.
Qed.
Ltac opened_ H := repeat match type of H with
  | then_ _ _ = Done _ _ => let E := fresh in let x := fresh in let w := fresh in apply then_inv in H as (x & w & E & H)
  | (let '(_, _) := ?p in _) = Done _ _ => destruct p
  | match ?o with Some _ => _ | None => _ end = Done _ _ => destruct o; try discriminate H
  | (if ?b then _ else _) = Done _ _ => destruct b; try discriminate H
  end.
Lemma run_store f o k s c w s' rep w' : fc_run f o k s c w = Done (s', rep) w' ->
  ksPriv s' = ksPriv s /\ (should_write k = false -> s' = s).
Proof.
  assert (s' = s -> ksPriv s' = ksPriv s /\ (should_write k = false -> s' = s)) as Same by (intros ->; auto).
  destruct k; cbn [fc_run should_write]; intros H; try (apply silent_done in H as [H _]).
  10:{ apply import_done in H as (data & w1 & label & w2 & v & who & _ & _ & H & _). split; [eapply import_priv, H|intros [=]]. }
  10:{ split; [|intros [=]]. apply uimport_done in H as (data & w1 & v & own & w2 & sure & _ & _ & _ & _ & [(_ & -> & _)|(_ & label & w3 & _ & H & _)]); [reflexivity|].
       eapply add_priv, H. }
  10:{ split; [|intros [=]]. apply remove_done in H as (_ & _ & -> & _). reflexivity. }
  all: apply Same; revert H; unfold fc_encrypt, fc_cryptsign, fc_decrypt, fc_decryptsigned, fc_sign, fc_verify, fc_check, fc_export, fc_exportself, fc_list; cbv zeta; intros H.
  all: opened_ H; congruence.
Qed.

(** *** Which files change *)
Definition begin_ (k : fcmd) (s : kstore) (w : world) : res kstore := if needs_unlock k then fc_unlock s (tick (tick w)) else Done s (tick (tick w)).
Lemma tick2_keeps w : keeps w (tick (tick w)).
Proof. eapply keeps_trans; apply tick_keeps. Qed.
Lemma begin_frame k s w : frame w (begin_ k s w).
Proof. eapply frame_keeps; [apply tick2_keeps|]. unfold begin_. destruct (needs_unlock k); [apply fc_unlock_frame|apply frame_done, keeps_refl]. Qed.
Lemma begin_priv k s w f path s1 w1 : key_file f path s -> begin_ k s w = Done s1 w1 -> go_priv s1 /\ ksKeys s1 = ksKeys s /\ healthy s1.
Proof.
  intros K. destruct (key_file_locked _ _ _ K) as (R & P & Lk & _). unfold begin_. destruct (needs_unlock k).
  - intros H. destruct (fc_unlock_inv _ _ _ _ Lk H) as (pass & _ & _ & O & _). split; [eapply opened_go, O|]. split; [apply O|eapply opened_healthy; eauto].
  - intros [= <- _]. split; [apply no_priv, P|]. split; [reflexivity|apply K].
Qed.
Lemma touches_exists p w w' q d : touches p w w' -> wFs w !! q = Some d -> exists d', wFs w' !! q = Some d'.
Proof. intros T E. destruct p as [p|]; [apply T in E; exact E|]. rewrite (keeps_fs _ _ T). eauto. Qed.
Lemma run_priv f o k s c w s' rep w' : go_priv s -> fc_run f o k s c w = Done (s', rep) w' -> go_priv s'.
Proof. intros G H. apply run_store in H as [E _]. intros x X. apply G. congruence. Qed.
(** The whole run, with a usable store and enough arguments. *)
Lemma main_cases f o l k a s w : chosen l = Some (k, a) -> (required_argc k <= length (lArgs l))%nat -> key_file (wFs w) (lPath l) s ->
  (exists w', keeps w w' /\ (fc_main f o l w = Fail w' \/ fc_main f o l w = Crash w')) \/
  exists s1 w1, begin_ k s w = Done s1 w1 /\ keeps w w1 /\ go_priv s1 /\ ksKeys s1 = ksKeys s /\ healthy s1 /\
    ((exists w', fc_run f o k s1 (cfg_of l a) w1 = Fail w' /\ fc_main f o l w = Fail w') \/
     (exists w', fc_run f o k s1 (cfg_of l a) w1 = Crash w' /\ fc_main f o l w = Crash w') \/
     (fc_run f o k s1 (cfg_of l a) w1 = Spin /\ fc_main f o l w = Spin) \/
     exists s2 rep w2, fc_run f o k s1 (cfg_of l a) w1 = Done (s2, rep) w2 /\ touches (out_path k (lArgs l)) w1 w2 /\ go_priv s2 /\
       (must k s = false -> fc_main f o l w = Done rep w2) /\
       (must k s = true -> fc_main f o l w =
          let '(ok, w') := w_raw_write (tick w2) (lPath l) (ks_dump (at_time s2 (clock w2))) in if ok then Done rep w' else Fail w')).
Proof.
  intros Hc Ha K. rewrite (main_eq f o l k a s w Hc Ha K). fold (begin_ k s w). pose proof (begin_frame k s w) as Fr.
  destruct (begin_ k s w) as [s1 w1|w1|w1|] eqn:B; cbn [then_].
  2,3: left; exists w1; split; [apply Fr; reflexivity|]; auto.
  2:{ exfalso. unfold begin_, fc_unlock in B. destruct (needs_unlock k); [|discriminate B]. destruct (negb _); [discriminate B|]. destruct (w_pass _) as [[p|] wx]; [|discriminate B].
      rewrite w_now_tick in B. destruct (ks_unlock _ _ _) as [[[] ?]|]; discriminate B. }
  right. exists s1, w1. split; [reflexivity|]. assert (keeps w w1) as K1 by (apply Fr; reflexivity). split; [exact K1|].
  destruct (begin_priv k s w _ _ _ _ K B) as (G & Ek & Hh). split; [exact G|]. split; [exact Ek|]. split; [exact Hh|].
  pose proof (fc_run_within f o k s1 (cfg_of l a) w1 Ha) as Wi. destruct (fc_run f o k s1 (cfg_of l a) w1) as [[s2 rep] w2|w2|w2|] eqn:R; cbn [then_ fst snd].
  2,3: eauto 10.
  2: eauto 10.
  right; right; right. exists s2, rep, w2. split; [reflexivity|]. assert (touches (out_path k (lArgs l)) w1 w2) as T by (apply Wi; reflexivity). split; [exact T|].
  assert (go_priv s2) as G2 by (eapply run_priv; eauto). split; [exact G2|]. destruct K as (N & [d F] & _). split; intros M; rewrite M.
  - apply finish_quiet; auto. rewrite <- (keeps_fs _ _ K1) in F. eapply touches_exists; eauto.
  - apply finish_writes, G2.
Qed.
Lemma must_iff k s : must k s = true <-> mutates k \/ k = FCheck /\ ksExport s = None.
Proof.
  unfold must. rewrite orb_true_iff, andb_true_iff, !bool_decide_eq_true, should_write_iff. tauto.
Qed.
Lemma ends_spin {A} w : ~ ends (@Spin A) w.
Proof. intros [[a H]|[H|H]]; discriminate H. Qed.
Lemma fcr_files f o l w w' p : ends (fc_main f o l w) w' -> wFs w' !! p <> wFs w !! p ->
  exists k a s, chosen l = Some (k, a) /\ key_file (wFs w) (lPath l) s /\
    (out_path k (lArgs l) = Some p \/ p = lPath l /\ (mutates k \/ k = FCheck /\ ksExport s = None)).
Proof.
  intros He Hp. apply ends_iff in He. destruct (chosen l) as [[k a]|] eqn:Hc.
  2:{ unfold fc_main in He. rewrite Hc in He. injection He as <-. contradiction. }
  destruct (decide (length (lArgs l) < required_argc k)%nat) as [Ha|Ha].
  { unfold fc_main in He. rewrite Hc in He. destruct (decide _); [|contradiction]. injection He as <-. contradiction. }
  assert (required_argc k <= length (lArgs l))%nat as Ha' by lia.
  destruct (fc_load_cases (lPath l) w) as [(s & K & _)|(_ & w1 & K & E)].
  2:{ unfold fc_main in He. rewrite Hc in He. destruct (decide _); [contradiction|].
      destruct E as [E|E]; rewrite E in He; cbn [then_] in He; injection He as <-; rewrite (keeps_fs _ _ K) in Hp; contradiction. }
  exists k, a, s. split; [reflexivity|]. split; [exact K|].
  destruct (main_cases f o l k a s w Hc Ha' K) as [(wx & Kx & [E|E])|(s1 & w1 & B & K1 & G & Ek & Hh & D)].
  1,2: rewrite E in He; injection He as <-; rewrite (keeps_fs _ _ Kx) in Hp; contradiction.
  assert (forall w2, touches (out_path k (lArgs l)) w1 w2 -> wFs w2 !! p <> wFs w !! p -> out_path k (lArgs l) = Some p) as T1.
  { intros w2 T N. destruct (out_path k (lArgs l)) as [q|]; [|exfalso; apply N; rewrite (keeps_fs _ _ T), (keeps_fs _ _ K1); reflexivity].
    destruct (decide (p = q)) as [->|Nq]; [reflexivity|]. exfalso. apply N. destruct T as [T _]. rewrite (T p Nq), (keeps_fs _ _ K1). reflexivity. }
  pose proof (fc_run_within f o k s1 (cfg_of l a) w1 Ha') as Wi. change (fArgs (cfg_of l a)) with (lArgs l) in Wi.
  destruct D as [(wx & R & E)|[(wx & R & E)|[[_ E]|(s2 & rep & w2 & R & T & _ & Q & M)]]].
  1,2: rewrite E in He; injection He as <-; left; eapply T1; [apply Wi; rewrite R; reflexivity|exact Hp].
  1: rewrite E in He; discriminate He.
  destruct (must k s) eqn:Em.
  - apply must_iff in Em. rewrite (M eq_refl) in He. destruct (w_raw_write (tick w2) _ _) as [ok w3] eqn:W. apply w_raw_write_touches in W as [W _].
    assert (w' = w3) as -> by (destruct ok; injection He as <-; reflexivity). destruct (decide (p = lPath l)) as [->|N]; [auto|]. left.
    rewrite (W p N) in Hp. cbn [tick wFs] in Hp. eapply T1; eauto.
  - rewrite (Q eq_refl) in He. injection He as <-. left. eapply T1; eauto.
Qed.

Ltac lifted := apply frame_lift, keeps_refl.
(** *** Failing runs *)
Definition clean {A} (w : world) (r : res A) : Prop := forall w', r = Fail w' \/ r = Crash w' -> keeps w w'.
Lemma frame_clean {A} w (r : res A) : frame w r -> clean w r.
Proof. intros F w' [->| ->]; apply F; reflexivity. Qed.
Lemma clean_keeps {A} w w1 (r : res A) : keeps w w1 -> clean w1 r -> clean w r.
Proof. intros K H w' E. eapply keeps_trans; [exact K|apply H, E]. Qed.
Lemma clean_then {A B} w (e : res A) (k : A -> world -> res B) :
  frame w e -> (forall a w1, e = Done a w1 -> keeps w w1 -> clean w1 (k a w1)) -> clean w (then_ e k).
Proof.
  intros F H. destruct e as [a w1|w1|w1|]; cbn [then_]; try (intros w' [[=]|[=]]; subst; apply F; reflexivity).
  assert (keeps w w1) as K by (apply F; reflexivity). eapply clean_keeps; [exact K|]. apply H; auto.
Qed.
Lemma clean_last {A B} w (e : res A) (g : A -> B) : clean w e -> clean w (then_ e (fun a w => Done (g a) w)).
Proof. intros H w' E. destruct e; cbn [then_] in E; destruct E as [E|E]; try discriminate E; injection E as ->; apply H; auto. Qed.
Lemma put_out_clean r path w : disk_ok w -> clean w (put_out r path w).
Proof.
  intros D. unfold put_out. destruct r as [out|]; [|apply frame_clean, frame_fail, keeps_refl]. destruct (w_write w path out) as [[] w1] eqn:E; intros w' [[=]|[=]]; subst.
  eapply w_write_fail; eauto.
Qed.
Lemma put_then_clean {B} r path w (g : unit -> B) : disk_ok w -> clean w (then_ (put_out r path w) (fun a w => Done (g a) w)).
Proof. intros D. apply clean_last, put_out_clean, D. Qed.
Lemma read_clean {A} w p (f : bytes -> world -> res A) : disk_ok w -> (forall d w1, disk_ok w1 -> clean w1 (f d w1)) ->
  clean w (match w_read w p with (None, w) => Fail w | (Some d, w) => f d w end).
Proof.
  intros D H. destruct (w_read w p) as [[d|] w1] eqn:E; apply w_read_keeps in E; [|apply frame_clean, frame_fail, E].
  eapply clean_keeps; [exact E|]. apply H. eapply keeps_disk; eauto.
Qed.
Lemma run_clean f o k s c w : disk_ok w -> clean w (fc_run f o k s c w).
Proof.
  intros D. destruct k; cbn [fc_run]; unfold silent; try apply (clean_last w _ (fun s => (s, RNone))).
  - apply read_clean; [exact D|]. intros m w1 D1. apply clean_then; [lifted|]. intros r w2 E K. apply lift_done in E as [_ ->].
    eapply clean_keeps; [apply (set_rng_keeps w1 (snd r))|]. apply (put_then_clean _ _ _ (fun _ => s)). eapply keeps_disk; [apply set_rng_keeps|exact D1].
  - apply read_clean; [exact D|]. intros m w1 D1. apply clean_then; [lifted|]. intros r w2 E K. cbv zeta.
    destruct (fst r) as [out|]; [|apply frame_clean, frame_fail, set_rng_keeps]. destruct (w_write _ _ _). intros w' [[=]|[=]].
  - apply read_clean; [exact D|]. intros m w1 D1. destruct (open_armour m) as [[sg m']|]; [|apply frame_clean, frame_fail, keeps_refl].
    apply clean_then; [lifted|]. intros out w2 E K. apply lift_done in E as [_ ->]. destruct out as [out|]; [|apply frame_clean, frame_fail, keeps_refl]. cbv zeta.
    assert (keeps w1 (if sg then w_print w1 (bs "Valid signature." ++ [x0a]) else w1)) as K2 by (destruct sg; [apply w_print_keeps|apply keeps_refl]).
    eapply clean_keeps; [exact K2|]. apply (put_then_clean _ _ _ (fun _ => s)). eapply keeps_disk; eauto.
  - apply read_clean; [exact D|]. intros m w1 D1. destruct (strip_armour _ m) as [m'|]; [|apply frame_clean, frame_fail, keeps_refl].
    apply clean_then; [lifted|]. intros out w2 E K. apply lift_done in E as [_ ->]. apply (put_then_clean _ _ _ (fun _ => s)), D1.
  - apply read_clean; [exact D|]. intros m w1 D1. apply clean_then; [lifted|]. intros out w2 E K. apply lift_done in E as [_ ->]. apply (put_then_clean _ _ _ (fun _ => s)), D1.
  - apply frame_clean, fc_verify_frame.
  - apply frame_clean, fc_check_frame.
  - unfold fc_export. rewrite w_now_tick. eapply clean_keeps; [apply tick_keeps|]. apply clean_then; [lifted|]. intros r w2 E K. apply lift_done in E as [_ ->].
    destruct r as [r|]; [|apply frame_clean, frame_spin]. apply (put_then_clean _ _ _ (fun _ => s)). eapply keeps_disk; [apply tick_keeps|exact D].
  - apply (put_then_clean _ _ _ (fun _ => s)), D.
  - apply frame_clean, fc_import_frame.
  - apply frame_clean, fc_uimport_frame.
  - apply frame_clean, fc_remove_frame.
  - apply frame_clean, fc_list_frame.
Qed.
Lemma raw_write_disk w p d ok w' : w_raw_write w p d = (ok, w') -> disk_ok w -> p <> [] -> ok = true /\ wFs w' = <[p := d]> (wFs w) /\ disk_ok w' /\
  wOut w' = wOut w /\ wPw w' = wPw w /\ wIn w' = wIn w.
Proof.
  intros H D N. unfold w_raw_write in H. destruct (decide (p = [])); [contradiction|]. unfold disk_ok in *. destruct (wFate w) as [|x fs].
  - injection H as <- <-. cbn. auto 7.
  - inversion D as [|? ? Hx Hr]. subst. injection H as <- <-. cbn. auto 7.
Qed.
Lemma fcr_failing f o l w w' : disk_ok w -> fc_main f o l w = Fail w' \/ fc_main f o l w = Crash w' -> wFs w' = wFs w.
Proof.
  intros D He. destruct (chosen l) as [[k a]|] eqn:Hc.
  2:{ unfold fc_main in He. rewrite Hc in He. destruct He; discriminate. }
  destruct (decide (length (lArgs l) < required_argc k)%nat) as [Ha|Ha].
  { unfold fc_main in He. rewrite Hc in He. destruct (decide _); [|contradiction]. destruct He as [[= <-]|[=]]. reflexivity. }
  assert (required_argc k <= length (lArgs l))%nat as Ha' by lia.
  destruct (fc_load_cases (lPath l) w) as [(s & K & _)|(_ & w1 & K & E)].
  2:{ unfold fc_main in He. rewrite Hc in He. destruct (decide _); [contradiction|].
      destruct E as [E|E]; rewrite E in He; cbn [then_] in He; destruct He as [[=]|[=]]; subst; apply keeps_fs, K. }
  destruct (main_cases f o l k a s w Hc Ha' K) as [(wx & Kx & [E|E])|(s1 & w1 & B & K1 & G & Ek & Hh & X)].
  1,2: rewrite E in He; destruct He as [[=]|[=]]; subst; apply keeps_fs, Kx.
  assert (disk_ok w1) as D1 by (eapply keeps_disk; eauto). pose proof (run_clean f o k s1 (cfg_of l a) w1 D1) as Cl.
  destruct X as [(wx & R & E)|[(wx & R & E)|[[_ E]|(s2 & rep & w2 & R & T & _ & Q & M)]]].
  1,2: rewrite E in He; destruct He as [[=]|[=]]; subst; rewrite <- (keeps_fs _ _ K1); apply keeps_fs, Cl; auto.
  1: rewrite E in He; destruct He; discriminate.
  destruct (must k s) eqn:Em.
  - assert (out_path k (lArgs l) = None) as On.
    { apply must_iff in Em as [[-> | [-> | ->]]|[-> _]]; destruct (lArgs l) as [|? [|? ?]]; reflexivity. }
    rewrite On in T. rewrite (M eq_refl) in He. destruct (w_raw_write (tick w2) _ _) as [ok w3] eqn:W.
    apply raw_write_disk in W as (-> & _); [destruct He; discriminate| |apply K]. eapply keeps_disk; [apply tick_keeps|]. eapply keeps_disk; eauto.
  - rewrite (Q eq_refl) in He. destruct He; discriminate.
Qed.
End WithCrypto.

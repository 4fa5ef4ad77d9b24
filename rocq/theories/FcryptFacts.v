(** Proofs about Fcrypt.v: loading, unlocking, writing, and which files change. *)
From Verif Require Export SpecFcrypt CmdFacts KeyStoreClaims.
Local Open Scope Z_scope.

Definition clock (w : world) : Z := nth 0 (wClk w) 0.
Definition tick (w : world) : world := World (wFs w) (wIn w) (wPw w) (drop 1 (wClk w)) (wRng w) (wFate w) (wOut w).
Lemma w_now_tick w : w_now w = (clock w, tick w).
Proof. destruct w as [f i p [|t ts] g fa o]; reflexivity. Qed.
Lemma set_rng_same w : set_rng w (wRng w) = w.
Proof. destruct w. reflexivity. Qed.
Lemma tick_keeps w : keeps w (tick w).
Proof. eapply w_now_keeps. apply w_now_tick. Qed.

Section WithCrypto.
Context {C : Crypto} {L : CryptoLaws}.

(** *** Loading *)
Lemma load_at f path o n1 n2 r : path <> [] -> load_kstore (delete [] f) path o n1 n2 r = load_kstore f path o n1 n2 r.
Proof. intros N. unfold load_kstore, read_file. rewrite lookup_delete_ne by auto. reflexivity. Qed.
Lemma key_file_locked f path s : key_file f path s -> ready s /\ ksPriv s = None /\ ksLocked s = true /\ ksBlob s <> None.
Proof.
  intros (_ & [d F] & Ld & R & _ & U). destruct (load_inv _ _ _ _ _ _ _ _ _ (Ld true 0 0 []) F) as (_ & P & Lk & _).
  assert (ksLocked s = true) as E.
  { destruct (ksLocked s); [reflexivity|]. destruct (U eq_refl) as (k & X & _). congruence. }
  split; [exact R|]. split; [exact P|]. split; [exact E|apply Lk, E].
Qed.
Lemma no_priv s : ksPriv s = None -> go_priv s.
Proof. intros E k X. congruence. Qed.
Lemma fc_load_ok path w s : key_file (wFs w) path s -> fc_load path w = Done s (tick (tick w)).
Proof.
  intros K. destruct (key_file_locked _ _ _ K) as (_ & P & _). destruct K as (N & [d F] & Ld & H).
  unfold fc_load. rewrite !w_now_tick. unfold w_disk. cbn [wFs tick wRng]. rewrite load_at by auto. rewrite Ld. cbn [lift then_ fst snd].
  change (wRng w) with (wRng (tick (tick w))). rewrite set_rng_same, (proj2 (ks_valid_true s (no_priv s P)) H). cbn [lift then_ negb].
  unfold w_exists, exists_. rewrite F, bool_decide_eq_false_2 by auto. reflexivity.
Qed.
Lemma disk_lookup w path : w_disk w !! path = None -> path = [] \/ wFs w !! path = None.
Proof. unfold w_disk. intros H. apply lookup_delete_None in H as [H|H]; auto. Qed.
Lemma fc_load_missing path w : path = [] \/ wFs w !! path = None ->
  (starved (wRng w) 64 -> exists w', fc_load path w = Fail w' /\ keeps w w') /\
  (~ starved (wRng w) 64 -> exists w', fc_load path w = Crash w' /\ keeps w w').
Proof.
  intros M. assert (w_disk (tick (tick w)) !! path = None) as F.
  { unfold w_disk. apply lookup_delete_None. cbn [wFs tick]. destruct M; auto. }
  assert (keeps w (tick (tick w))) as K by (eapply keeps_trans; apply tick_keeps).
  unfold fc_load. rewrite !w_now_tick. destruct (load_new (w_disk (tick (tick w))) path (clock w) (clock (tick w)) (wRng (tick (tick w))) F) as (A & B & _).
  split; intros S.
  - destruct (A S) as [g' ->]. cbn [lift then_ fst snd]. eexists. split; [reflexivity|]. eapply keeps_trans; [exact K|apply set_rng_keeps].
  - rewrite (B S). cbn [lift then_]. eauto.
Qed.
Lemma load_any f path d orNew n1 n2 g s : f !! path = Some d -> load_kstore f path orNew n1 n2 g = Ret (Some s, g) ->
  forall orNew n1 n2 g, load_kstore f path orNew n1 n2 g = Ret (Some s, g).
Proof.
  intros F. unfold load_kstore, read_file. rewrite F. intros H o' m1 m2 g'. destruct (parse_json d) as [j|]; [|discriminate H].
  destruct (dec_kstore j) as [x|]; [|discriminate H]. cbv zeta in *.
  match type of H with (if ?b then _ else _) = _ => destruct b end; [discriminate H|]. injection H as ->. reflexivity.
Qed.
Lemma load_rng f path d orNew n1 n2 g s g' : f !! path = Some d -> load_kstore f path orNew n1 n2 g = Ret (s, g') -> g' = g.
Proof.
  intros F. unfold load_kstore, read_file. rewrite F. destruct (parse_json d) as [j|]; [|intros [= _ <-]; reflexivity].
  destruct (dec_kstore j) as [x|]; [|intros [= _ <-]; reflexivity]. cbv zeta.
  match goal with |- (if ?b then _ else _) = _ -> _ => destruct b end; intros [= _ <-]; reflexivity.
Qed.
Lemma fc_load_cases path w :
  (exists s, key_file (wFs w) path s /\ fc_load path w = Done s (tick (tick w))) \/
  (forall s, ~ key_file (wFs w) path s) /\ exists w', keeps w w' /\ (fc_load path w = Fail w' \/ fc_load path w = Crash w').
Proof.
  assert (path = [] \/ wFs w !! path = None \/ path <> [] /\ exists d, wFs w !! path = Some d) as [M|[M|[N [d F]]]].
  { destruct (decide (path = [])); [auto|]. destruct (wFs w !! path); eauto. }
  1,2: right; split; [intros s (N & [d F] & _); congruence|].
  1: destruct (fc_load_missing path w (or_introl M)) as [A B].
  2: destruct (fc_load_missing path w (or_intror M)) as [A B].
  1,2: destruct (delivers_or_starved (wRng w) 64) as [(p & g & Hl & D)|S];
    [destruct B as (w' & E & K); [intros X; exact (X p g Hl D)|]; eauto|destruct (A S) as (w' & E & K); eauto].
  assert (keeps w (tick (tick w))) as K by (eapply keeps_trans; apply tick_keeps).
  destruct (load_kstore (wFs w) path true (clock w) (clock (tick w)) (wRng w)) as [[o g']|] eqn:E.
  2:{ unfold load_kstore, read_file in E. rewrite F in E. destruct (parse_json d); [|discriminate E]. destruct (dec_kstore _); [|discriminate E].
      cbv zeta in E. match type of E with (if ?b then _ else _) = _ => destruct b end; discriminate E. }
  assert (g' = wRng w) as -> by exact (load_rng _ _ _ _ _ _ _ _ _ F E).
  assert (fc_load path w = then_ (lift (Ret (o, wRng w)) (tick (tick w))) (fun r w => let w := set_rng w (snd r) in
     match fst r with None => Fail w | Some s => let* (ok, w) := lift (ks_valid s) w in if negb ok then Fail w else Done s w end)) as X.
  { unfold fc_load. rewrite !w_now_tick. unfold w_disk. cbn [wFs tick wRng]. rewrite load_at, E by auto. cbn [lift then_ fst snd]. destruct o as [s|]; [|reflexivity].
    destruct (lift (ks_valid s) _) as [b w1|w1|w1|]; cbn [then_]; auto. destruct b; cbn [negb]; [|reflexivity].
    unfold w_exists, exists_. rewrite F, bool_decide_eq_false_2 by auto. reflexivity. }
  cbn [lift then_ fst snd] in X. change (wRng w) with (wRng (tick (tick w))) in X. rewrite set_rng_same in X.
  destruct o as [s|].
  - pose proof (load_any _ _ _ _ _ _ _ _ F E) as Ld. destruct (load_inv _ _ _ _ _ _ _ _ _ E F) as (R & P & _).
    destruct (ks_valid_dec s (no_priv s P)) as [[V H]|[V H]]; rewrite V in X; cbn [lift then_ negb] in X.
    + left. exists s. split; [|exact X]. split; [exact N|]. split; [eauto|]. split; [exact Ld|exact H].
    + right. split; [|eauto]. intros s' (_ & _ & Ld' & H'). assert (s' = s) as -> by (specialize (Ld' true 0 0 []); rewrite Ld in Ld'; congruence). contradiction.
  - right. split; [|eauto]. intros s' (_ & _ & Ld' & _). rewrite Ld' in E. discriminate E.
Qed.
Lemma key_file_fun f path s s' : key_file f path s -> key_file f path s' -> s = s'.
Proof. intros (_ & _ & A & _) (_ & _ & B & _). specialize (A true 0 0 []). rewrite B in A. congruence. Qed.

(** *** Unlocking *)
Lemma fc_unlock_frame s w : frame w (fc_unlock s w).
Proof.
  unfold fc_unlock. destruct (negb (ksLocked s)); [apply frame_done, keeps_refl|].
  destruct (w_pass w) as [[p|] w1] eqn:E; apply w_pass_keeps in E; [|apply frame_fail, E].
  rewrite w_now_tick. assert (keeps w (tick w1)) as K by (eapply keeps_trans; [exact E|apply tick_keeps]).
  apply (frame_keeps w (tick w1)); [exact K|]. apply frame_then; [apply frame_lift, keeps_refl|]. intros [[] s1] w2 _ _; [apply frame_done|apply frame_fail]; apply keeps_refl.
Qed.
Lemma unlocked_opened now s d sg e v : wf_priv (full_priv d sg e v) -> opened s (unlocked now s d sg e v).
Proof.
  intros W. unfold opened, unlocked. cbn [ksVersion ksTime ksKeys ksBlob ksLocked ksExport ksPriv]. split_and!; auto.
  - destruct (ksExport s); [reflexivity|contradiction].
  - destruct (ksExport s); discriminate.
  - eexists. split; [reflexivity|]. exists d, sg, e, v. auto.
Qed.
Lemma fc_unlock_inv s w s' w' : ksLocked s = true -> fc_unlock s w = Done s' w' ->
  exists pass, wPw w = Some pass :: wPw w' /\ ks_unlock (clock w) s pass = Ret (true, s') /\ opened s s' /\
    wFs w' = wFs w /\ wIn w' = wIn w /\ wClk w' = drop 1 (wClk w) /\ wRng w' = wRng w /\ wFate w' = wFate w /\ wOut w' = wOut w.
Proof.
  intros Lk. unfold fc_unlock. rewrite Lk. cbn [negb]. destruct (w_pass w) as [[p|] w1] eqn:E; [|discriminate].
  pose proof (w_pass_keeps _ _ _ E) as (F1 & F2 & _). apply w_pass_eq in E as (E1 & E2 & E3 & E4 & E5). rewrite w_now_tick.
  assert (clock w1 = clock w) as Ec by (unfold clock; rewrite E3; reflexivity). rewrite Ec.
  destruct (ks_unlock (clock w) s p) as [[[] s1]|] eqn:U; cbn [lift then_]; try discriminate. intros [= -> <-].
  exists p. split; [exact E1|]. split; [exact U|]. split; [|cbn; rewrite E3; split_and!; auto].
  apply unlock_inv in U as [[-> [[=]|[_ X]]]|(_ & _ & _ & d & sg & e & v & _ & W & ->)]; [congruence|]. apply unlocked_opened, W.
Qed.
Lemma fc_unlock_ok s w pass ps s' : ksLocked s = true -> wPw w = Some pass :: ps -> ks_unlock (clock w) s pass = Ret (true, s') ->
  fc_unlock s w = Done s' (World (wFs w) (wIn w) ps (drop 1 (wClk w)) (wRng w) (wFate w) (wOut w)).
Proof.
  intros Lk E U. unfold fc_unlock, w_pass. rewrite Lk, E. cbn [negb]. rewrite w_now_tick. unfold clock at 1. cbn [wClk].
  change (nth 0 (wClk w) 0) with (clock w). rewrite U. reflexivity.
Qed.
Lemma opened_go s s' : opened s s' -> go_priv s'.
Proof. intros (_ & _ & _ & _ & _ & _ & _ & k & E & O) k' E'. rewrite E in E'. injection E' as <-. destruct O as (d & sg & e & v & -> & W & _). exact W. Qed.
Lemma owns_length s k : owns s k -> length (owner s) = 64%nat.
Proof. intros (d & sg & e & v & -> & (_ & _ & W1 & W2) & ->). cbn [kPub pE pV arr] in *. rewrite app_length. lia. Qed.
Lemma opened_healthy s s' : ready s -> opened s s' -> healthy s'.
Proof.
  intros (R1 & R2 & R3) (E1 & E2 & E3 & _ & Lk & _ & _ & k & E & O). split; [split_and!; congruence|]. split; [eapply owns_length, O|]. eauto.
Qed.

(** *** Which files change *)
(** The files and the disk's moods after a command that writes to [p] only. *)
Definition touches (p : option bytes) (w w' : world) : Prop :=
  match p with Some p => only_changes p (wFs w) (wFs w') /\ (forall q d, wFs w !! q = Some d -> exists d', wFs w' !! q = Some d') | None => keeps w w' end.
Definition within {A} (p : option bytes) (w : world) (r : res A) : Prop := forall w', res_world r = Some w' -> touches p w w'.
Lemma keeps_touches p w w' : keeps w w' -> touches p w w'.
Proof. intros K. destruct p as [p|]; [|exact K]. unfold touches, only_changes. rewrite (keeps_fs _ _ K). eauto. Qed.
Lemma touches_keeps p w w1 w2 : keeps w w1 -> touches p w1 w2 -> touches p w w2.
Proof. intros K T. destruct p as [p|]; [|eapply keeps_trans; eauto]. unfold touches, only_changes in *. rewrite <- (keeps_fs _ _ K). exact T. Qed.
Lemma frame_within {A} p w (r : res A) : frame w r -> within p w r.
Proof. intros H w' E. apply keeps_touches, H, E. Qed.
Lemma within_keeps {A} p w w1 (r : res A) : keeps w w1 -> within p w1 r -> within p w r.
Proof. intros K H w' E. eapply touches_keeps; eauto. Qed.
Lemma within_then {A B} p w (e : res A) (k : A -> world -> res B) :
  frame w e -> (forall a w1, e = Done a w1 -> within p w1 (k a w1)) -> within p w (then_ e k).
Proof.
  intros F H. destruct e as [a w1|w1|w1|]; cbn [then_]; try (intros w' E; apply keeps_touches, F, E).
  eapply within_keeps; [apply F; reflexivity|apply H; reflexivity].
Qed.
Lemma within_last {A B} p w (e : res A) (g : A -> world -> res B) :
  within p w e -> (forall a w1 w2, res_world (g a w1) = Some w2 -> w2 = w1) -> within p w (then_ e g).
Proof. intros F H w' E. destruct e as [a w1|w1|w1|]; cbn [then_] in E; try (apply F, E). apply H in E as ->. apply F. reflexivity. Qed.
Lemma w_raw_write_touches w path d ok w' : w_raw_write w path d = (ok, w') -> touches (Some path) w w'.
Proof.
  unfold w_raw_write. destruct (decide (path = [])); [intros [= _ <-]; apply keeps_touches, keeps_refl|].
  destruct (match wFate w with [] => (WOk, []) | x :: l => (x, l) end) as [fate rest]. destruct (write_file fate (wFs w) path d) as [b f] eqn:E.
  intros [= <- <-]. unfold touches, only_changes. cbn [wFs].
  destruct fate; injection E as <- <-; (split; [intros q N; rewrite ?lookup_insert_ne by auto; reflexivity|intros q x X]);
    try (destruct (decide (path = q)) as [->|N]; [rewrite lookup_insert|rewrite lookup_insert_ne by auto]); eauto.
Qed.
Lemma w_write_touches w path d ok w' : w_write w path d = (ok, w') -> touches (Some path) w w'.
Proof.
  unfold w_write. destruct (decide (path = bs "-")); [intros [= _ <-]; apply keeps_touches, w_print_keeps|apply w_raw_write_touches].
Qed.
Lemma put_out_within r path w : within (Some path) w (put_out r path w).
Proof.
  unfold put_out. destruct r as [out|]; [|apply frame_within, frame_fail, keeps_refl].
  destruct (w_write w path out) as [ok w1] eqn:E. apply w_write_touches in E. intros w'. destruct ok; intros [= <-]; exact E.
Qed.
Ltac done_ := intros ? ?w1 ?w2 [= <-]; reflexivity.
Ltac lifted := apply frame_lift, keeps_refl.
Lemma fc_encrypt_within s c w : within (Some (farg 1 c)) w (fc_encrypt s c w).
Proof.
  unfold fc_encrypt. destruct (w_read w (farg 0 c)) as [[msg|] w1] eqn:E; apply w_read_keeps in E; [|apply frame_within, frame_fail, E].
  apply (within_keeps _ _ w1); [exact E|]. apply within_then; [lifted|]. intros r w2 _. apply within_last; [|done_].
  eapply within_keeps; [apply set_rng_keeps|apply put_out_within].
Qed.
Lemma fc_cryptsign_within s c w : within (Some (farg 1 c)) w (fc_cryptsign s c w).
Proof.
  unfold fc_cryptsign. destruct (w_read w (farg 0 c)) as [[msg|] w1] eqn:E; apply w_read_keeps in E; [|apply frame_within, frame_fail, E].
  apply (within_keeps _ _ w1); [exact E|]. apply within_then; [lifted|]. intros r w2 _. eapply within_keeps; [apply (set_rng_keeps w2 (snd r))|].
  cbv zeta. destruct (fst r) as [out|]; [|apply frame_within, frame_fail, keeps_refl]. destruct (w_write _ _ _) as [ok w3] eqn:E3. apply w_write_touches in E3.
  intros w' [= <-]. exact E3.
Qed.
Lemma fc_decrypt_within s c w : within (Some (farg 1 c)) w (fc_decrypt s c w).
Proof.
  unfold fc_decrypt. destruct (w_read w (farg 0 c)) as [[msg|] w1] eqn:E; apply w_read_keeps in E; [|apply frame_within, frame_fail, E].
  apply (within_keeps _ _ w1); [exact E|]. destruct (open_armour msg) as [[signed m]|]; [|apply frame_within, frame_fail, keeps_refl].
  apply within_then; [lifted|]. intros [out|] w2 _; [|apply frame_within, frame_fail, keeps_refl]. cbv zeta.
  apply within_last; [|done_]. eapply within_keeps; [|apply put_out_within]. destruct signed; [apply w_print_keeps|apply keeps_refl].
Qed.
Lemma fc_decryptsigned_within s c w : within (Some (farg 1 c)) w (fc_decryptsigned s c w).
Proof.
  unfold fc_decryptsigned. destruct (w_read w (farg 0 c)) as [[msg|] w1] eqn:E; apply w_read_keeps in E; [|apply frame_within, frame_fail, E].
  apply (within_keeps _ _ w1); [exact E|]. destruct (strip_armour EncryptedType msg) as [m|]; [|apply frame_within, frame_fail, keeps_refl].
  apply within_then; [lifted|]. intros out w2 _. apply within_last; [apply put_out_within|done_].
Qed.
Lemma fc_sign_within s c w : within (Some (farg 1 c)) w (fc_sign s c w).
Proof.
  unfold fc_sign. destruct (w_read w (farg 0 c)) as [[msg|] w1] eqn:E; apply w_read_keeps in E; [|apply frame_within, frame_fail, E].
  apply (within_keeps _ _ w1); [exact E|]. apply within_then; [lifted|]. intros out w2 _. apply within_last; [apply put_out_within|done_].
Qed.
Lemma fc_verify_frame s c w : frame w (fc_verify s c w).
Proof.
  unfold fc_verify. destruct (w_read w (farg 0 c)) as [[msg|] w1] eqn:E; apply w_read_keeps in E; [|apply frame_fail, E].
  apply (frame_keeps _ w1); [exact E|]. destruct (w_read w1 (farg 1 c)) as [[sig|] w2] eqn:E2; apply w_read_keeps in E2; [|apply frame_fail, E2].
  apply (frame_keeps _ w2); [exact E2|]. destruct (strip_armour SignatureType sig) as [m|]; [|apply frame_fail, keeps_refl].
  apply frame_then; [lifted|]. intros ok w3 _ _. apply frame_done, w_print_keeps.
Qed.
Lemma fc_check_frame o s w : frame w (fc_check o s w).
Proof.
  unfold fc_check. destruct (ksLocked s); [apply frame_fail, keeps_refl|].
  apply frame_then; [lifted|]. intros [] w1 _ _; cbn [negb]; [|apply frame_fail, keeps_refl].
  apply frame_then; [lifted|]. intros [[]|] w2 _ _; [apply frame_done|apply frame_fail|apply frame_spin]; apply keeps_refl.
Qed.
Lemma fc_export_within o s c w : within (Some (farg 0 c)) w (fc_export o s c w).
Proof.
  unfold fc_export. rewrite w_now_tick. apply (within_keeps _ _ (tick w)); [apply tick_keeps|].
  apply within_then; [lifted|]. intros [r|] w1 _; [|apply frame_within, frame_spin]. apply within_last; [apply put_out_within|done_].
Qed.
Lemma fc_exportself_within s c w : within (Some (farg 0 c)) w (fc_exportself s c w).
Proof. unfold fc_exportself. apply within_last; [apply put_out_within|done_]. Qed.
Lemma ask_label_keeps c w l w' : ask_label c w = (l, w') -> keeps w w'.
Proof. unfold ask_label. destruct (decide (fLabel c = self)); [apply w_line_keeps|intros [= _ <-]; apply keeps_refl]. Qed.
Lemma fc_import_frame o s c w : frame w (fc_import o s c w).
Proof.
  unfold fc_import. destruct (w_read w (farg 0 c)) as [[data|] w1] eqn:E; apply w_read_keeps in E; [|apply frame_fail, E].
  apply (frame_keeps _ w1); [exact E|]. destruct (ask_label c w1) as [[label|] w2] eqn:E2; apply ask_label_keeps in E2; [|apply frame_fail, E2].
  apply (frame_keeps _ w2); [exact E2|]. rewrite w_now_tick. apply (frame_keeps _ (tick w2)); [apply tick_keeps|].
  apply frame_then; [lifted|]. intros [[] s1] w3 _ _; cbn [negb]; [|apply frame_fail, keeps_refl].
  destruct (parse_verified_key data) as [v|]; [|apply frame_fail, keeps_refl].
  apply frame_then; [lifted|]. intros [l|] w4 _ _; [apply frame_done, w_print_keeps|apply frame_fail, keeps_refl].
Qed.
Lemma ask_sure_frame f : forall w, frame w (ask_sure f w).
Proof.
  induction f as [|f IH]; intros w; [apply frame_spin|]. cbn [ask_sure]. destruct (w_line w) as [[line|] w1] eqn:E; apply w_line_keeps in E; [|apply frame_done, E].
  destruct (decide (line = bs "yes")); [apply frame_done, E|]. destruct (decide (line = bs "no")); [apply frame_done, E|]. apply (frame_keeps _ w1); [exact E|apply IH].
Qed.
Lemma fc_uimport_frame f s c w : frame w (fc_uimport f s c w).
Proof.
  unfold fc_uimport. destruct (w_read w (farg 0 c)) as [[data|] w1] eqn:E; apply w_read_keeps in E; [|apply frame_fail, E].
  apply (frame_keeps _ w1); [exact E|]. destruct (parse_verified_key data) as [v|]; [|apply frame_fail, keeps_refl].
  apply frame_then; [lifted|]. intros own w2 _ _. cbv zeta. eapply frame_keeps; [apply w_print_keeps|].
  apply frame_then; [apply ask_sure_frame|]. intros [[]|] w3 _ _; [|apply frame_fail, keeps_refl|apply frame_done, keeps_refl].
  destruct (ask_label c w3) as [[label|] w4] eqn:E4; apply ask_label_keeps in E4; [|apply frame_fail, E4].
  apply (frame_keeps _ w4); [exact E4|]. rewrite !w_now_tick. apply (frame_keeps _ (tick (tick w4))); [eapply keeps_trans; apply tick_keeps|].
  apply frame_then; [lifted|]. intros [[] s1] w5 _ _; [apply frame_done|apply frame_fail]; apply keeps_refl.
Qed.
Lemma fc_remove_frame s c w : frame w (fc_remove s c w).
Proof.
  unfold fc_remove. destruct (decide (farg 0 c = self)); [apply frame_fail, keeps_refl|]. destruct (negb _); [apply frame_fail|apply frame_done]; apply keeps_refl.
Qed.
Lemma fc_list_frame o s w : frame w (fc_list o s w).
Proof. unfold fc_list. apply frame_then; [lifted|]. intros l w1 _ _. apply frame_done, keeps_refl. Qed.
Lemma fc_run_within f o k s c w : (required_argc k <= length (fArgs c))%nat -> within (out_path k (fArgs c)) w (fc_run f o k s c w).
Proof.
  intros Ha. destruct k; cbn [required_argc fc_run] in *; unfold silent;
    try match goal with |- within ?p w (then_ _ _) => apply within_last; [|done_] end;
    try match goal with
    | |- within (out_path ?k _) w (?f s c w) => assert (out_path k (fArgs c) = Some (farg 1 c)) as -> by (unfold farg; destruct (fArgs c) as [|? [|? ?]]; cbn in Ha |- *; try lia; reflexivity)
    | |- within (out_path ?k _) w _ => assert (out_path k (fArgs c) = Some (farg 0 c)) as -> by (unfold farg; destruct (fArgs c) as [|? ?]; cbn in Ha |- *; try lia; reflexivity)
    | |- within (out_path ?k _) w _ => assert (out_path k (fArgs c) = None) as -> by (destruct (fArgs c) as [|? [|? ?]]; reflexivity)
    end.
  - apply fc_encrypt_within.
  - apply fc_cryptsign_within.
  - apply fc_decrypt_within.
  - apply fc_decryptsigned_within.
  - apply fc_sign_within.
  - apply fc_verify_frame.
  - apply fc_check_frame.
  - apply fc_export_within.
  - apply fc_exportself_within.
  - apply fc_import_frame.
  - apply fc_uimport_frame.
  - apply fc_remove_frame.
  - apply fc_list_frame.
Qed.
End WithCrypto.

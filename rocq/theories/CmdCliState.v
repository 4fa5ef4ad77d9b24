(** What each command of secretscli does to the session and the files. *)
From Verif Require Export CmdCliFacts.
Local Open Scope Z_scope.

Definition cstate (r : cres) : sess * world := match r with CRet _ v w | CPanic v w | CExit v w => (v, w) end.
(** Only records under labels in [L] change. *)
Definition touches (L : bytes -> Prop) (v v' : sess) : Prop :=
  sPass (vStore v') = sPass (vStore v) /\ (forall k, ~ L k -> slot (vStore v') k = slot (vStore v) k) /\
  (vDirty v = true -> vDirty v' = true).
Lemma touches_refl L v : touches L v v. Proof. split; [reflexivity|auto]. Qed.
Lemma touches_trans L v v1 v2 : touches L v v1 -> touches L v1 v2 -> touches L v v2.
Proof. intros (A & B & D) (A' & B' & D'). split; [congruence|]. split; [|auto]. intros k N. rewrite B', B; auto. Qed.
Lemma touches_weak (L L' : bytes -> Prop) v v' : (forall k, L k -> L' k) -> touches L v v' -> touches L' v v'.
Proof. intros I (A & B & D). split; [exact A|]. split; [|exact D]. intros k N. apply B. auto. Qed.

Lemma set_rec_touch s k x s' v d : set_rec s k x = Ret s' -> sRecs s = sRecs (vStore v) -> sPass s = sPass (vStore v) -> (vDirty v = true -> d = true) ->
  touches (fun y => y = k) v (Sess s' d).
Proof.
  intros E R P D. apply set_rec_slots in E as (E1 & E2 & E3 & E4). split; [cbn; congruence|]. split; [|exact D].
  intros k' N. cbn. rewrite E2 by exact N. unfold slot. rewrite R. reflexivity.
Qed.

Section WithCrypto.
Context `{C : Crypto} `{TT : Tty} {L : CryptoLaws}.

Lemma wmeta_loop_keeps n : forall md w md' b w', wmeta_loop n md w = (md', b, w') -> keeps w w'.
Proof.
  induction n as [|n IH]; intros md w md' b w'; cbn [wmeta_loop]; [intros [= <- <- <-]; apply keeps_refl|].
  destruct (w_line w) as [[line|] w1] eqn:E; apply w_line_keeps in E; [|intros [= <- <- <-]; exact E].
  destruct (decide _); [intros [= <- <- <-]; exact E|]. destruct (split_meta line) as [[k x]|]; intros H; apply IH in H; eapply keeps_trans; eauto.
Qed.

(** *** One secret *)
Lemma store_single_state label v w v' w' : cstate (store_single label v w) = (v', w') ->
  keeps w w' /\ (good_clock w -> go_store (vStore v) -> go_store (vStore v')) /\ touches (fun k => k = label) v v'.
Proof.
  assert (forall w1 r, keeps w w1 -> (go_store (vStore v) -> forall r', r = Some r' -> go_rec r') ->
    cstate (match w_pass w1 with
    | (None, w) => CRet false v w
    | (Some p, w) =>
        if decide (length p = 0%nat) then CRet false v w else
        match r with
        | None => CPanic v w
        | Some r =>
            let '(now, w) := w_now w in
            let s := SStore (sVersion (vStore v)) now (sRecs (vStore v)) (sPass (vStore v)) in
            match set_rec s label (Some (SRec (rLabel r) now (Some p) (rMeta r))) with
            | Ret s => CRet true (Sess s true) w
            | Panic => CPanic (set_store v s) w
            end
        end
    end) = (v', w') -> keeps w w' /\ (good_clock w -> go_store (vStore v) -> go_store (vStore v')) /\ touches (fun k => k = label) v v') as A.
  { intros w1 r K G. destruct (w_pass w1) as [[p|] w2] eqn:Ep; apply w_pass_keeps in Ep; pose proof (keeps_trans _ _ _ K Ep) as K2.
    2:{ intros [= <- <-]. split; [exact K2|]. split; [auto|apply touches_refl]. }
    destruct (decide _). { intros [= <- <-]. split; [exact K2|]. split; [auto|apply touches_refl]. }
    destruct r as [r|]. 2:{ intros [= <- <-]. split; [exact K2|]. split; [auto|apply touches_refl]. }
    destruct (w_now w2) as [t w3] eqn:En. pose proof (w_now_keeps _ _ _ En) as K3. pose proof (keeps_trans _ _ _ K2 K3) as K4. cbv zeta.
    destruct (set_rec _ _ _) as [s1|] eqn:Es; cbn [cstate]; intros [= <- <-].
    - split; [exact K4|]. split; [|eapply set_rec_touch; eauto]. intros Kc Gs. assert (int64 t) as It by (eapply w_now_int64; [exact (keeps_clock _ _ K2 Kc)|exact En]).
      cbn. eapply go_set; [| |exact Es]; [apply go_time; assumption|exact It].
    - split; [exact K4|]. split.
      + intros Kc Gs. apply go_time; [exact Gs|]. eapply w_now_int64; [exact (keeps_clock _ _ K2 Kc)|exact En].
      + split; [reflexivity|]. split; auto. }
  unfold store_single. destruct (recs (vStore v) !! label) as [r|] eqn:Er.
  - destruct (w_line w) as [[a|] w1] eqn:El; apply w_line_keeps in El.
    + destruct (_ || _).
      * apply A; [exact El|]. intros G r' ->. eapply slot_go; eauto.
      * intros [= <- <-]. split; [exact El|]. split; [auto|apply touches_refl].
    + intros [= <- <-]. split; [exact El|]. split; [auto|apply touches_refl].
  - apply (A w (Some _)); [apply keeps_refl|]. intros _ r' [= <-]. unfold go_rec, int64. cbn. lia.
Qed.

(** *** Saving *)
Lemma write_session_total path m v w : exists ok v' w', write_session path m v w = CRet ok v' w'.
Proof.
  unfold write_session. destruct (negb (vDirty v)); [eauto|].
  destruct (marshal_exact (vStore v) m (wRng w)) as (_ & ([[[d|] s'] g] & ->) & _); [|eauto].
  destruct (w_write (set_rng w g) path d) as [ok w1]. eauto.
Qed.
Lemma shutdown_total path m v w : exists ok v' w', shutdown path m v w = CRet ok v' w'.
Proof. unfold shutdown. destruct (write_session_total path m v w) as (ok & v' & w' & ->). eauto. Qed.
Lemma write_clean path m v w : vDirty v = false -> write_session path m v w = CRet true v w.
Proof. intros E. unfold write_session. rewrite E. reflexivity. Qed.
Lemma w_write_clock w p d ok w' : w_write w p d = (ok, w') -> wClk w' = wClk w.
Proof.
  unfold w_write, w_raw_write. destruct (decide _); [intros [= <- <-]; reflexivity|]. destruct (decide _); [intros [= <- <-]; reflexivity|].
  destruct (match wFate w with [] => _ | _ => _ end) as [fa rest]. destruct (write_file _ _ _ _) as [b f]. intros [= <- <-]. reflexivity.
Qed.
Lemma zero_zeros n : zero (zeros n) = zeros n.
Proof. unfold zero, zeros. induction n; cbn; [reflexivity|]. f_equal. assumption. Qed.
Lemma zero_is b : zero b = zeros (length b).
Proof. unfold zero, zeros. induction b as [|x b IH]; cbn; [reflexivity|]. f_equal; [|exact IH]. unfold bxor. rewrite Z.lxor_nilpotent. reflexivity. Qed.
Lemma go_zero s : go_store s -> go_store (store_zero s).
Proof.
  intros (A & B & D). refine (conj A (conj B _)). cbn. intros m k r E. destruct (sRecs s) as [m0|] eqn:Es; [|discriminate]. injection E as <-.
  rewrite lookup_fmap. destruct (m0 !! k) as [[r0|]|] eqn:Er; cbn; try discriminate. intros [= <-]. specialize (D m0 k r0 eq_refl Er). exact D.
Qed.
Lemma write_session_state path m v w ok v' w' : write_session path m v w = CRet ok v' w' ->
  only_changes path (wFs w) (wFs w') /\ (good_clock w -> good_clock w') /\
  (vStore v' = vStore v \/ vStore v' = store_zero (vStore v)) /\
  (vDirty v = true -> ok = false -> vDirty v' = true) /\
  (vDirty v = true -> ok = true -> vDirty v' = false /\ vStore v' = store_zero (vStore v)) /\
  (vDirty v = false -> v' = v /\ w' = w).
Proof.
  unfold write_session. destruct (vDirty v) eqn:Ed; cbn [negb].
  2:{ intros [= <- <- <-]. split_and!; auto; try discriminate. intros q _. reflexivity. }
  destruct (marshal_store (vStore v) m (wRng w)) as [[[[d|] s'] g]|] eqn:E; [|intros [= <- <- <-]|discriminate].
  - destruct (w_write (set_rng w g) path d) as [b w1] eqn:W. intros [= <- <- <-].
    assert (s' = store_zero (vStore v)) as ->.
    { unfold marshal_store in E. destruct (negb _); [discriminate|]. destruct (rand _ _) as [[salt|] g1]; [|discriminate].
      destruct (derive_key_strength _ _ _); [|discriminate]. destruct (encrypt _ _ _) as [[[enc|] g2]|]; cbn in E; [|discriminate|discriminate]. congruence. }
    pose proof (w_write_only _ _ _ _ _ W) as Oc. apply w_write_clock in W. cbn in W, Oc. split_and!; cbn; auto; try discriminate.
    + intros K. unfold good_clock. rewrite W. exact K.
    + intros _ ->. auto.
    + intros _ ->. auto.
  - assert (s' = vStore v) as -> by (pose proof (marshal_wipes _ _ _ _ _ _ E) as [Hn _]; auto).
    split_and!; cbn; auto; try discriminate. intros q _. reflexivity.
Qed.
Lemma write_session_saves path m v w v' w' : plain_path path -> go_store (vStore v) -> vDirty v = true ->
  write_session path m v w = CRet true v' w' ->
  saved (wFs w') path m (vStore v) /\ vDirty v' = false /\ wiped_store (vStore v) (vStore v').
Proof.
  intros P G D. unfold write_session. rewrite D. cbn [negb].
  destruct (marshal_store (vStore v) m (wRng w)) as [[[[d|] s'] g]|] eqn:E; [|discriminate|discriminate].
  destruct (w_write (set_rng w g) path d) as [[] w1] eqn:W; [|discriminate]. intros [= <- <-].
  assert (write_store (vStore v) path m w = Done tt w1) as Ws by (unfold write_store; rewrite E; cbn; rewrite W; reflexivity).
  apply write_store_done in Ws as [Sv _]; [|assumption..]. split_and!; auto.
  pose proof (marshal_wipes _ _ _ _ _ _ E) as [_ Hs]. exact (Hs d eq_refl).
Qed.
Lemma write_session_works path m v w salt nonce g1 g2 : path <> [] -> disk_ok w -> vDirty v = true -> sound (vStore v) -> m = 0 \/ m = 1 ->
  length salt = 32%nat -> length nonce = 24%nat -> delivers (wRng w) salt g1 -> delivers g1 nonce g2 ->
  exists v' w', write_session path m v w = CRet true v' w'.
Proof.
  intros N D V S M L1 L2 D1 D2. destruct (write_store_succeeds (vStore v) path m w salt nonce g1 g2 N D S M L1 L2 D1 D2) as [w' E].
  unfold write_store in E. unfold write_session. rewrite V. cbn [negb]. destruct (marshal_store (vStore v) m (wRng w)) as [[[[d|] s'] g]|]; cbn in E; [|discriminate|discriminate].
  destruct (w_write (set_rng w g) path d) as [[] w1]; [|discriminate]. eauto.
Qed.

(** *** Hollow stores *)
Lemma hollow_weak n (P P' : bytes -> Prop) s : (forall k, P k -> P' k) -> hollow n P s -> hollow n P' s.
Proof. intros I [A B]. split; [exact A|]. intros k r N. apply B. auto. Qed.
Lemma hollow_touch n (P P' : bytes -> Prop) v v' : hollow n P (vStore v) -> touches P' v v' -> hollow n (fun k => P k \/ P' k) (vStore v').
Proof.
  intros [A B] (T1 & T2 & _). split; [congruence|]. intros k r N E. rewrite T2 in E by tauto. apply (B k r); tauto.
Qed.
Lemma all_zero_zero b : all_zero (zero b).
Proof. rewrite zero_is. intros x I. apply elem_of_replicate in I as [-> _]. reflexivity. Qed.
Lemma zero_store_hollow n P s pass : sPass s = Some pass -> length pass = n -> hollow n P (store_zero s).
Proof.
  intros E <-. split; [cbn; rewrite E; cbn; rewrite zero_is; reflexivity|]. intros k r _. unfold slot. cbn. destruct (sRecs s) as [m|]; [|discriminate]. cbn.
  rewrite lookup_fmap. destruct (m !! k) as [[r0|]|]; cbn; try discriminate. intros [= <-]. cbn. split.
  - destruct (rSecret r0); cbn; [apply all_zero_zero|exact I].
  - intros md k' x E'. destruct (rMeta r0) as [md0|]; [|discriminate]. injection E' as <-. rewrite lookup_fmap. destruct (md0 !! k') as [[y|]|]; cbn; try discriminate; intros [= <-]; cbn; [apply all_zero_zero|exact I].
Qed.
Lemma hollow_zero n P s : hollow n P s -> hollow n P (store_zero s).
Proof. intros [A _]. eapply zero_store_hollow; [exact A|]. unfold zeros. apply replicate_length. Qed.
Lemma wiped_hollow n P s s' pass : wiped_store s s' -> sPass s = Some pass -> length pass = n -> hollow n P s'.
Proof.
  intros (_ & _ & Wp & Wr) E <-. split.
  - rewrite E in Wp. cbn in Wp. destruct (sPass s') as [p'|]; [|tauto]. destruct Wp as [Ln Az]. f_equal. unfold zeros. rewrite <- Ln.
    clear - Az. induction p' as [|b p' IH]; cbn; [reflexivity|]. f_equal; [apply Az; left|]. apply IH. intros x I. apply Az. right. exact I.
  - intros k r _. unfold slot. destruct (sRecs s) as [mm|], (sRecs s') as [mm'|]; try tauto; try discriminate. specialize (Wr k). intros Er. rewrite Er in Wr.
    destruct (mm !! k) as [[r0|]|]; try tauto. destruct Wr as (_ & _ & Ws & Wm). split.
    + destruct (rSecret r0), (rSecret r); cbn in *; tauto.
    + intros md k' x Em Ex. rewrite Em in Wm. destruct (rMeta r0) as [md0|]; [|cbn in Wm; tauto]. cbn in Wm. specialize (Wm k'). rewrite Ex in Wm.
      destruct (md0 !! k') as [y|]; [|tauto]. destruct x, y; cbn in *; tauto.
Qed.

(** *** Several secrets *)
Lemma store_labels_state path m args : forall first v w v' w', cstate (store_labels path m first args v w) = (v', w') ->
  only_changes path (wFs w) (wFs w') /\ (good_clock w -> good_clock w') /\
  (good_clock w -> go_store (vStore v) -> go_store (vStore v')) /\
  (forall n P, hollow n P (vStore v) -> hollow n (fun k => P k \/ k ∈ args) (vStore v')).
Proof.
  induction args as [|l args IH]; intros first v w v' w'; cbn [store_labels].
  { intros [= <- <-]. split_and!; auto; [intros q _; reflexivity|]. intros n P. apply hollow_weak. auto. }
  pose proof (store_single_state l v w) as Hs.
  assert (forall v1 w1, cstate (store_single l v w) = (v1, w1) ->
    only_changes path (wFs w) (wFs w1) /\ (good_clock w -> good_clock w1) /\
    (good_clock w -> go_store (vStore v) -> go_store (vStore v1)) /\
    (forall n P, hollow n P (vStore v) -> hollow n (fun k => P k \/ k ∈ l :: args) (vStore v1))) as A.
  { intros v1 w1 E. apply Hs in E as (K & G & T). split_and!; auto.
    - intros q _. rewrite (keeps_fs _ _ K). reflexivity.
    - apply keeps_clock, K.
    - intros n P H. eapply hollow_weak; [|apply (hollow_touch n P _ v v1 H T)]. cbn. intros k. rewrite elem_of_cons. tauto. }
  destruct (store_single l v w) as [[] v1 w1|v1 w1|v1 w1] eqn:E1; cbn [cstate] in *; [| |intros [= <- <-]; auto..].
  - specialize (Hs _ _ eq_refl) as (K & G & T). intros H. apply IH in H as (A1 & A2 & A3 & A5). rewrite (keeps_fs _ _ K) in A1. split_and!; auto.
    + intros Kc. apply A2. eapply keeps_clock; eauto.
    + intros Kc Gs. apply A3; [eapply keeps_clock; eauto|auto].
    + intros n P H. eapply hollow_weak; [|apply A5, (hollow_touch n P _ v v1 H T)]. cbn. intros k. rewrite elem_of_cons. tauto.
  - destruct first; [intros [= <- <-]; auto|]. specialize (A _ _ eq_refl) as (A1 & A2 & A3 & A5).
    destruct (write_session_total path m v1 w1) as (ok & v2 & w2 & E). rewrite E. intros [= <- <-].
    apply write_session_state in E as (B1 & B2 & B3 & _). split_and!; auto.
    + intros q N. rewrite B1, A1; auto.
    + intros Kc Gs. destruct B3 as [-> | ->]; [|apply go_zero]; auto.
    + intros n P H. destruct B3 as [-> | ->]; [|apply hollow_zero]; auto.
Qed.
Lemma store_one path m l v w v' w' : cstate (store_labels path m true [l] v w) = (v', w') -> cstate (store_single l v w) = (v', w').
Proof. cbn [store_labels]. destruct (store_single l v w) as [[] v1 w1|v1 w1|v1 w1]; auto. Qed.

(** *** Metadata *)
Lemma write_meta_state args v w v' w' : cstate (write_meta args v w) = (v', w') ->
  keeps w w' /\ (good_clock w -> go_store (vStore v) -> go_store (vStore v')) /\ touches (fun k => args = [k]) v v'.
Proof.
  assert (forall v0 w0, (v, w) = (v0, w0) -> keeps w w0 /\ (good_clock w -> go_store (vStore v) -> go_store (vStore v0)) /\ touches (fun k => args = [k]) v v0) as Same.
  { intros ?? [= <- <-]. split; [apply keeps_refl|]. split; [auto|apply touches_refl]. }
  unfold write_meta. destruct args as [|label [|]]; [apply Same| |apply Same].
  destruct (recs (vStore v) !! label) as [[r|]|] eqn:Er; [|apply Same..].
  destruct (wmeta_loop _ _ w) as [[md b] w1] eqn:El. apply wmeta_loop_keeps in El.
  destruct b.
  - destruct (w_now w1) as [t w2] eqn:En. pose proof (w_now_keeps _ _ _ En) as K2. pose proof (keeps_trans _ _ _ El K2) as K3.
    destruct (set_rec _ _ _) as [s1|] eqn:Es; cbn [cstate]; intros [= <- <-].
    + split; [exact K3|]. split.
      * intros Kc Gs. assert (int64 t) as It by (eapply w_now_int64; [exact (keeps_clock _ _ El Kc)|exact En]).
        cbn. eapply go_set; [| |exact Es]; [apply go_time; assumption|exact It].
      * eapply touches_weak; [|eapply set_rec_touch; eauto]. cbn. intros k ->. reflexivity.
    + split; [exact K3|]. split; [auto|apply touches_refl].
  - destruct (set_rec _ _ _) as [s1|] eqn:Es; cbn [cstate]; intros [= <- <-].
    + split; [exact El|]. split.
      * intros Kc Gs. eapply go_set; [exact Gs| |exact Es]. cbn. apply (slot_go _ _ _ Gs Er).
      * eapply touches_weak; [|eapply (set_rec_touch _ _ _ _ v (vDirty v)); eauto]. cbn. intros k ->. reflexivity.
    + split; [exact El|]. split; [auto|apply touches_refl].
Qed.

(** *** Any line *)
Lemma cli_show_state hx many s args : forall v w v' w', cstate (cli_show hx many s args v w) = (v', w') -> v' = v /\ keeps w w'.
Proof.
  induction args as [|l args IH]; intros v w v' w'; cbn [cli_show]; [intros [= <- <-]; split; [reflexivity|apply keeps_refl]|].
  destruct (recs s !! l) as [[r|]|]; [|intros [= <- <-]; split; [reflexivity|apply keeps_refl]|].
  all: intros H; apply IH in H as [-> H]; split; [reflexivity|]; eapply keeps_trans; [|exact H]; apply w_print_keeps.
Qed.
Lemma read_metas_state s args : forall v w v' w', cstate (read_metas s args v w) = (v', w') -> v' = v /\ keeps w w'.
Proof.
  induction args as [|l args IH]; intros v w v' w'; cbn [read_metas]; [intros [= <- <-]; split; [reflexivity|apply keeps_refl]|].
  destruct (recs s !! l) as [[r|]|]; [|intros [= <- <-]; split; [reflexivity|apply w_print_keeps]|].
  all: intros H; apply IH in H as [-> H]; split; [reflexivity|]; eapply keeps_trans; [|exact H]; eauto using w_print_keeps, keeps_trans.
Qed.
Lemma passwd_state v w v' w' : cstate (cli_passwd v w) = (v', w') ->
  keeps w w' /\ sRecs (vStore v') = sRecs (vStore v) /\ vDirty v' = vDirty v /\ (go_store (vStore v) -> go_store (vStore v')).
Proof.
  unfold cli_passwd. destruct (w_pass w) as [[p|] w1] eqn:E1; apply w_pass_keeps in E1; [|intros [= <- <-]; auto].
  destruct (w_pass w1) as [[q|] w2] eqn:E2; apply w_pass_keeps in E2; pose proof (keeps_trans _ _ _ E1 E2) as K; [|intros [= <- <-]; auto].
  destruct (decide _); intros [= <- <-]; split_and!; auto.
Qed.

(** What holds of the state after a line. *)
Record after_line (path line : bytes) (v : sess) (w : world) (v' : sess) (w' : world) : Prop := AfterLine {
  al_fs : only_changes path (wFs w) (wFs w');
  al_clock : good_clock w -> good_clock w';
  al_go : good_clock w -> go_store (vStore v) -> go_store (vStore v');
  al_save : no_save line -> wFs w' = wFs w /\ (forall k, ~ concerns k line -> slot (vStore v') k = slot (vStore v) k) /\
    (vDirty v = true -> vDirty v' = true) /\ (~ verb line (bs "passwd") -> sPass (vStore v') = sPass (vStore v));
  al_quiet : quiet line -> wFs w' = wFs w /\ sRecs (vStore v') = sRecs (vStore v) /\ vDirty v' = vDirty v;
  al_hollow : forall n P, ~ verb line (bs "passwd") -> hollow n P (vStore v) -> hollow n (fun k => P k \/ concerns k line) (vStore v') }.

Lemma after_same path line v w w' : keeps w w' -> after_line path line v w v w'.
Proof.
  intros K. pose proof (keeps_fs _ _ K) as Kf. split; auto.
  - intros q _. rewrite Kf. reflexivity.
  - apply keeps_clock, K.
  - intros n P _. apply hollow_weak. auto.
Qed.
Lemma command_state path m line v w v' w' : cstate (command path m line v w) = (v', w') -> after_line path line v w v' w'.
Proof.
  assert (forall v' w', (v, w) = (v', w') -> after_line path line v w v' w') as Same by (intros ?? [= <- <-]; apply after_same, keeps_refl).
  unfold command. destruct (str_fields line) as [|cmd args] eqn:F; [apply Same|].
  assert (line_words line (cmd :: args)) as W by (apply fields_iff, F).
  assert (verb line cmd) as V by (exists args; exact W).
  assert (forall t v' w', (v, w_print w t) = (v', w') -> after_line path line v w v' w') as Print by (intros ??? [= <- <-]; apply after_same, w_print_keeps).
  destruct (decide (cmd = bs "clear")) as [->|]; [apply Print|].
  destruct (decide (cmd = bs "help")) as [->|]; [destruct (help_text args); [apply Print|apply Same]|].
  destruct (decide (cmd = bs "list")) as [->|]; [apply Print|].
  destruct (decide (cmd = bs "quit")) as [->|].
  { unfold shutdown. destruct (write_session_total path m v w) as (ok & v1 & w1 & E). rewrite E. cbn [cstate]. intros [= <- <-].
    apply write_session_state in E as (B1 & B2 & B3 & _). split; auto.
    - intros Kc Gs. apply go_zero. destruct B3 as [-> | ->]; [|apply go_zero]; auto.
    - intros (_ & N & _). tauto.
    - intros (_ & _ & _ & N). tauto.
    - intros num P _ H. eapply (hollow_weak num P); [auto|]. apply hollow_zero. destruct B3 as [-> | ->]; [|apply hollow_zero]; auto. }
  destruct (decide (cmd = bs "passwd")) as [->|].
  { intros H. apply passwd_state in H as (K & R & D & G). pose proof (keeps_fs _ _ K) as Kf. split; auto.
    - intros q _. rewrite Kf. reflexivity.
    - apply keeps_clock, K.
    - intros _. split_and!; auto; [|intros Dt; congruence|tauto]. intros k _. unfold slot. rewrite R. reflexivity.
    - intros num P N. tauto. }
  destruct (decide (cmd = bs "rmeta")) as [->|].
  { unfold read_meta. destruct (decide _); [apply Same|]. intros H. apply read_metas_state in H as [-> K]. apply after_same, K. }
  destruct (decide (cmd = bs "show")) as [->|].
  { unfold show_cmd. destruct (decide _); [apply Same|]. intros H. apply cli_show_state in H as [-> K]. apply after_same, K. }
  destruct (decide (cmd = bs "showhex")) as [->|].
  { unfold show_cmd. destruct (decide _); [apply Same|]. intros H. apply cli_show_state in H as [-> K]. apply after_same, K. }
  destruct (decide (cmd = bs "store")) as [->|].
  { unfold store_cmd. destruct (decide _); [apply Same|]. intros H. pose proof H as (A1 & A2 & A3 & A4)%store_labels_state. split; auto.
    - intros (_ & _ & N). destruct args as [|l [|l2 args]]; [congruence| |exfalso; apply (N l l2 args); exact W].
      apply store_one in H. apply store_single_state in H as (K & G & T1 & T2 & T3). split; [apply keeps_fs, K|]. split; [|auto].
      intros k Nk. apply T2. intros ->. apply Nk. exists [l]. split; [left|left; exact W].
    - intros (N & _). tauto.
    - intros num P _ H'. eapply hollow_weak; [|apply A4, H']. cbn. intros k [|I]; [auto|]. right. exists args. auto. }
  destruct (decide (cmd = bs "wmeta")) as [->|].
  { intros H. apply write_meta_state in H as (K & G & T). pose proof (keeps_fs _ _ K) as Kf.
    assert (forall k, args = [k] -> concerns k line) as Cn by (intros k ->; exists [k]; split; [left|right; exact W]). split; auto.
    - intros q _. rewrite Kf. reflexivity.
    - apply keeps_clock, K.
    - intros _. destruct T as (T1 & T2 & T3). split; [exact Kf|]. split; [|auto]. intros k Nk. apply T2. intros E. apply Nk, Cn, E.
    - intros (_ & N & _). tauto.
    - intros num P _ H'. eapply hollow_weak; [|apply (hollow_touch num P _ v v' H' T)]. cbn. intros k [|I]; [auto|]. right. apply Cn, I. }
  destruct (decide (cmd = bs "write")) as [->|]; [|apply Same].
  unfold write_cmd. destruct (decide _); [|apply Same]. destruct (write_session_total path m v w) as (ok & v1 & w1 & E). rewrite E. intros [= <- <-].
  apply write_session_state in E as (B1 & B2 & B3 & _). split; auto.
  - intros Kc Gs. destruct B3 as [-> | ->]; [|apply go_zero]; auto.
  - intros (N & _). tauto.
  - intros (_ & _ & N & _). tauto.
  - intros num P _ H. eapply (hollow_weak num P); [auto|]. destruct B3 as [-> | ->]; [|apply hollow_zero]; auto.
Qed.

(** *** Sequences of lines *)
Lemma set_in_keeps w i l : read_line (wIn w) = (l, i) -> keeps w (set_in w i).
Proof. intros E. apply (w_line_keeps w l). unfold w_line. rewrite E. reflexivity. Qed.
Lemma runs_app path m v w ls v1 w1 : runs path m v w ls v1 w1 -> forall ls' v2 w2, runs path m v1 w1 ls' v2 w2 -> runs path m v w (ls ++ ls') v2 w2.
Proof.
  induction 1; intros ls' v2 w2 R; [exact R|eapply rs_blank; eauto|]. cbn. eapply rs_line; eauto.
Qed.
Record after_lines (path : bytes) (ls : list bytes) (v : sess) (w : world) (v' : sess) (w' : world) : Prop := AfterLines {
  als_fs : only_changes path (wFs w) (wFs w');
  als_clock : good_clock w -> good_clock w';
  als_go : good_clock w -> go_store (vStore v) -> go_store (vStore v');
  als_save : Forall no_save ls -> wFs w' = wFs w /\ (forall k, (forall l, l ∈ ls -> ~ concerns k l) -> slot (vStore v') k = slot (vStore v) k) /\
    (vDirty v = true -> vDirty v' = true) /\ (Forall (fun l => ~ verb l (bs "passwd")) ls -> sPass (vStore v') = sPass (vStore v));
  als_quiet : Forall quiet ls -> wFs w' = wFs w /\ sRecs (vStore v') = sRecs (vStore v) /\ vDirty v' = vDirty v;
  als_hollow : forall n P, Forall (fun l => ~ verb l (bs "passwd")) ls -> hollow n P (vStore v) ->
    hollow n (fun k => P k \/ exists l, l ∈ ls /\ concerns k l) (vStore v') }.
Lemma after_none path v w w' : keeps w w' -> after_lines path [] v w v w'.
Proof.
  intros K. pose proof (keeps_fs _ _ K) as Kf. split; auto.
  - intros q _. rewrite Kf. reflexivity.
  - apply keeps_clock, K.
  - intros n P _. apply hollow_weak. auto.
Qed.
Lemma after_cons path l ls v w v1 w1 v' w' : after_line path l v w v1 w1 -> after_lines path ls v1 w1 v' w' -> after_lines path (l :: ls) v w v' w'.
Proof.
  intros [A1 A2 A3 A4 A5 A6] [B1 B2 B3 B4 B5 B6]. split; auto.
  - intros q N. rewrite B1, A1; auto.
  - intros F. apply Forall_cons in F as [F1 F2]. apply A4 in F1 as (C1 & C2 & C3 & C4). apply B4 in F2 as (D1 & D2 & D3 & D4). split_and!; auto; [congruence| |].
    + intros k H. rewrite D2, C2; auto. { apply H. left. } intros l' I. apply H. right. exact I.
    + intros F. apply Forall_cons in F as [F1 F2]. rewrite D4, C4; auto.
  - intros F. apply Forall_cons in F as [F1 F2]. apply A5 in F1 as (C1 & C2 & C3). apply B5 in F2 as (D1 & D2 & D3). split_and!; congruence.
  - intros n P F H. apply Forall_cons in F as [F1 F2]. eapply hollow_weak; [|apply B6; [exact F2|apply A6; [exact F1|exact H]]]. cbn.
    intros k [[|]|(l' & I & Cn)]; [auto| |]; right; [exists l; split; [left|auto]|exists l'; split; [right; exact I|exact Cn]].
Qed.
Lemma after_in path ls v w i v' w' : keeps w (set_in w i) -> after_lines path ls v (set_in w i) v' w' -> after_lines path ls v w v' w'.
Proof. intros K [A1 A2 A3 A4 A5 A6]. pose proof (keeps_clock _ _ K) as Kc. split; auto. Qed.
Lemma runs_state path m v w ls v' w' : runs path m v w ls v' w' -> after_lines path ls v w v' w'.
Proof.
  induction 1 as [|v w i ls v' w' E R IH|v w i l ok v1 w1 ls v' w' E N Q Cm R IH].
  - apply after_none, keeps_refl.
  - eapply after_in; [eapply set_in_keeps, E|exact IH].
  - eapply after_in; [eapply set_in_keeps, E|]. eapply after_cons; [|exact IH]. eapply command_state. rewrite Cm. reflexivity.
Qed.
Lemma after_snoc path ls l v w v1 w1 v' w' : after_lines path ls v w v1 w1 -> after_line path l v1 w1 v' w' -> after_lines path (ls ++ [l]) v w v' w'.
Proof.
  intros [B1 B2 B3 B4 B5 B6] [A1 A2 A3 A4 A5 A6]. split; auto.
  - intros q N. rewrite A1, B1; auto.
  - intros F. apply Forall_app in F as [F2 F1]. apply Forall_cons in F1 as [F1 _]. apply A4 in F1 as (C1 & C2 & C3 & C4). apply B4 in F2 as (D1 & D2 & D3 & D4). split_and!; auto; [congruence| |].
    + intros k H. rewrite C2, D2; auto. { intros l' I. apply H. apply elem_of_app. auto. } apply H. apply elem_of_app. right. left.
    + intros F. apply Forall_app in F as [F2 F1]. apply Forall_cons in F1 as [F1 _]. rewrite C4, D4; auto.
  - intros F. apply Forall_app in F as [F2 F1]. apply Forall_cons in F1 as [F1 _]. apply A5 in F1 as (C1 & C2 & C3). apply B5 in F2 as (D1 & D2 & D3). split_and!; congruence.
  - intros n P F H. apply Forall_app in F as [F2 F1]. apply Forall_cons in F1 as [F1 _]. eapply hollow_weak; [|apply A6; [exact F1|apply B6; [exact F2|exact H]]]. cbn.
    intros k [[|(l' & I & Cn)]|]; [auto| |]; right; [exists l'|exists l]; rewrite elem_of_app; split; auto. right. left.
Qed.
Lemma session_ends_state path m v w ls v' w' : session_ends path m v w ls v' w' -> after_lines path ls v w v' w'.
Proof.
  intros [R|(ls0 & l & v1 & w1 & i & -> & R & E & N & P)]; [apply runs_state in R; exact R|].
  eapply after_snoc; [eapply runs_state, R|]. apply set_in_keeps in E.
  pose proof (command_state path m l v1 (set_in w1 i) v' w') as [A1 A2 A3 A4 A5 A6]; [rewrite P; reflexivity|].
  pose proof (keeps_clock _ _ E) as Kc. split; auto.
Qed.
End WithCrypto.

(** Proofs about CmdSecrets.v. *)
From Verif Require Export CmdSecrets CmdFacts.
Local Open Scope Z_scope.

Ltac fr := repeat first [ apply frame_fail | apply frame_crash | apply frame_done | apply frame_spin | apply frame_lift | apply keeps_refl
  | eassumption ].

Section WithCrypto.
Context `{C : Crypto} {L : CryptoLaws}.

Lemma write_store_frame s path m w w' : disk_ok w -> write_store s path m w = Fail w' -> keeps w w'.
Proof.
  unfold write_store. intros D. destruct (marshal_store s m (wRng w)) as [[[[d|] s'] g]|]; cbn; [| |discriminate].
  - destruct (w_write (set_rng w g) path d) as [[] w1] eqn:E; [discriminate|]. intros [= <-].
    eapply keeps_trans; [apply (set_rng_keeps w g)|]. eapply w_write_fail; [exact E|]. exact D.
  - intros [= <-]. apply set_rng_keeps.
Qed.
Lemma write_store_no_crash s path m w w' : write_store s path m w <> Crash w'.
Proof.
  unfold write_store. destruct (marshal_exact s m (wRng w)) as (_ & ([[[d|] s'] g] & ->) & _); cbn; [|discriminate].
  destruct (w_write (set_rng w g) path d) as [[] w1]; discriminate.
Qed.
Lemma write_store_only s path m w w' : ends (write_store s path m w) w' -> only_changes path (wFs w) (wFs w').
Proof.
  intros E. apply ends_iff in E. unfold write_store in E. destruct (marshal_store s m (wRng w)) as [[[[d|] s'] g]|]; cbn in E.
  - destruct (w_write (set_rng w g) path d) as [ok w1] eqn:W. apply w_write_only in W. cbn in W. destruct ok; injection E as <-; exact W.
  - injection E as <-. intros q _. reflexivity.
  - injection E as <-. intros q _. reflexivity.
Qed.
Lemma write_store_done s path m w w' : plain_path path -> go_store s -> write_store s path m w = Done tt w' ->
  saved (wFs w') path m s /\ sound s.
Proof.
  intros P G. unfold write_store. destruct (marshal_store s m (wRng w)) as [[[[d|] s'] g]|] eqn:E; cbn; [|discriminate|discriminate].
  destruct (w_write (set_rng w g) path d) as [[] w1] eqn:W; [|discriminate]. intros [= <-].
  apply w_write_ok in W; [|exact P]. cbn in W.
  destruct (marshal_roundtrip s m _ _ _ _ G E) as (s2 & U & R & T).
  assert (sound s) as V.
  { apply marshal_inv in E as [([=] & _)|(salt & key & nonce & g1 & V & _)]. exact V. }
  split; [|exact V]. destruct (sPass s) as [pass|] eqn:Ep; [|destruct V as (_ & _ & _ & V); congruence].
  exists pass, s2. split_and!; auto. exists d. rewrite W, lookup_insert. auto.
Qed.
Lemma write_store_succeeds s path m w salt nonce g1 g2 : path <> [] -> disk_ok w -> sound s -> m = 0 \/ m = 1 ->
  length salt = 32%nat -> length nonce = 24%nat -> delivers (wRng w) salt g1 -> delivers g1 nonce g2 ->
  exists w', write_store s path m w = Done tt w'.
Proof.
  intros N D V M L1 L2 D1 D2.
  assert (exists key, mode_key m (default [] (sPass s)) salt key) as [key K].
  { unfold mode_key. destruct M as [-> | ->]; eauto. }
  destruct (marshal_exact s m (wRng w)) as (Hm & _). destruct (Hm salt nonce g1 g2 key V L1 L2 D1 D2 K) as (out & c & s' & E & _).
  unfold write_store. rewrite E. cbn. destruct (w_write_succeeds (set_rng w g2) path out N D) as [w' ->]. eauto.
Qed.

Lemma load_store_frame path m w : frame w (load_store path m w).
Proof.
  unfold load_store. destruct (w_pass w) as [[pass|] w1] eqn:Ep; apply w_pass_keeps in Ep; [|fr].
  destruct (w_exists w1 path); [|fr]. destruct (w_read w1 path) as [[d|] w2] eqn:Er; apply w_read_keeps in Er.
  - eapply frame_keeps; [exact Ep|]. eapply frame_keeps; [exact Er|].
    apply frame_then; [fr|]. intros [s|] w3 _ _; fr.
  - apply frame_fail. eapply keeps_trans; eauto.
Qed.
Lemma load_store_done path m w s w1 : plain_path path -> load_store path m w = Done s w1 ->
  exists pass, wPw w = Some pass :: wPw w1 /\ opens (wFs w) path m pass s /\ good_store s /\ sPass s = Some pass /\
    keeps w w1 /\ wIn w1 = wIn w /\ wClk w1 = wClk w /\ wRng w1 = wRng w /\ wOut w1 = wOut w.
Proof.
  intros P. unfold load_store. destruct (w_pass w) as [[pass|] w2] eqn:Ep; [|discriminate].
  pose proof (w_pass_keeps _ _ _ Ep) as K. apply w_pass_eq in Ep as (E1 & E2 & E3 & E4 & E5).
  destruct (w_exists w2 path); [|discriminate]. rewrite w_read_plain by exact P.
  destruct (wFs w2 !! path) as [d|] eqn:Ef; [|discriminate]. rewrite (keeps_fs _ _ K) in Ef.
  destruct (unmarshal_store d pass m) as [[s0|]|] eqn:U; cbn; [|discriminate|discriminate]. intros [= <- <-].
  exists pass. destruct (unmarshal_good _ _ _ _ U) as [Gs Ps]. split_and!; auto; try apply Gs; try apply K. exists d. auto.
Qed.
Lemma load_store_opens path m w pass ps s : plain_path path -> wPw w = Some pass :: ps -> opens (wFs w) path m pass s ->
  exists w1, load_store path m w = Done s w1 /\ wPw w1 = ps.
Proof.
  intros P E (d & Ef & U). unfold load_store, w_pass. rewrite E. unfold w_exists, exists_. cbn [wFs]. rewrite Ef.
  rewrite bool_decide_eq_false_2 by apply P. cbn [negb andb fst]. rewrite w_read_plain by exact P. cbn [wFs]. rewrite Ef. cbn. rewrite U. cbn. eauto.
Qed.

(** *** No command touches a file while it runs *)
Lemma meta_loop_frame n : forall md w, frame w (meta_loop n md w).
Proof.
  induction n as [|n IH]; intros md w; cbn [meta_loop]; [fr|].
  destruct (w_line w) as [[line|] w1] eqn:E; apply w_line_keeps in E; [|fr].
  destruct (decide (line = [])); [fr|]. destruct (split_meta line) as [[k v]|]; eapply frame_keeps; eauto.
Qed.
Lemma unmeta_loop_frame n : forall md w, frame w (unmeta_loop n md w).
Proof.
  induction n as [|n IH]; intros md w; cbn [unmeta_loop]; [fr|].
  destruct (w_line w) as [[line|] w1] eqn:E; apply w_line_keeps in E; [|eapply frame_keeps; eauto].
  destruct (decide (line = [])); [fr|]. eapply frame_keeps; eauto.
Qed.
Lemma add_plain_frame s c w : frame w (add_plain s c w).
Proof.
  assert (forall r, frame w match w_pass w with
    | (None, w) => Fail w
    | (Some p, w) =>
        if decide (length p = 0%nat) then Fail w else
        match r with
        | None => Crash w
        | Some r => let '(now, w) := w_now w in lift (set_rec s (arg0 c) (Some (SRec (rLabel r) now (Some p) (rMeta r)))) w
        end
    end) as A.
  { intros r. destruct (w_pass w) as [[p|] w1] eqn:E; apply w_pass_keeps in E; [|fr].
    destruct (decide _); [fr|]. destruct r; [|fr]. destruct (w_now w1) as [t w2] eqn:En. apply w_now_keeps in En.
    fr. eapply keeps_trans; eauto. }
  unfold add_plain. destruct (recs s !! arg0 c) as [r|]; [destruct (cOver c)|]; [apply A|fr|apply (A (Some _))].
Qed.
Lemma add_meta_frame n s c w : frame w (add_meta n s c w).
Proof.
  unfold add_meta. apply frame_then; [destruct (store_has s (arg0 c)); [fr|apply add_plain_frame]|]. intros s1 w1 _ _.
  destruct (recs s1 !! arg0 c) as [[r|]|]; [|fr|fr].
  apply frame_then; [apply meta_loop_frame|]. intros md w2 _ _. destruct (w_now w2) as [t w3] eqn:En. apply w_now_keeps in En. fr.
Qed.
Lemma multi_frame n : forall s c w, frame w (multi n s c w).
Proof.
  induction n as [|n IH]; intros s c w; cbn [multi]; [fr|].
  destruct (w_line w) as [[name|] w1] eqn:E; apply w_line_keeps in E; [|fr].
  destruct (decide (name = [])); [fr|].
  assert (forall r, frame w1 match w_pass w1 with
    | (None, w) => Fail w
    | (Some p, w) =>
        if decide (length p = 0%nat) then multi n s c w else
        match r with
        | None => Crash w
        | Some r => let '(now, w) := w_now w in
                    let* (s, w) := lift (set_rec s name (Some (SRec (rLabel r) now (Some p) (rMeta r)))) w in multi n s c w
        end
    end) as A.
  { intros r. destruct (w_pass w1) as [[p|] w2] eqn:Ep; apply w_pass_keeps in Ep; [|fr].
    destruct (decide _); [eapply frame_keeps; eauto|]. destruct r; [|fr]. destruct (w_now w2) as [t w3] eqn:En. apply w_now_keeps in En.
    eapply frame_keeps; [eapply keeps_trans; eauto|]. apply frame_then; [fr|]. intros s1 w4 H _. apply lift_done in H as [_ ->]. apply IH. }
  eapply frame_keeps; [exact E|].
  destruct (recs s !! name) as [r|]; [destruct (cOver c)|]; [apply A|apply IH|apply (A (Some _))].
Qed.
Lemma run_frame n m x s c w : frame w (run n m x s c w).
Proof.
  destruct x; cbn [run].
  - unfold show_secret. destruct (recs s !! arg0 c) as [[r|]|]; fr. apply w_print_keeps.
  - unfold add_secret. destruct (cMeta c); [apply add_meta_frame|apply add_plain_frame].
  - unfold list_secrets. fr.
  - unfold chpass. destruct (w_pass w) as [[p|] w1] eqn:E; apply w_pass_keeps in E; [|fr]. destruct (decide _); fr.
  - unfold remove_secret. destruct (cMeta c).
    + unfold remove_meta. destruct (recs s !! arg0 c) as [[r|]|]; [|fr|fr].
      apply frame_then; [apply unmeta_loop_frame|]. intros md w2 _ _. destruct (w_now w2) as [t w3] eqn:En. apply w_now_keeps in En. fr.
    + destruct (store_has s (arg0 c)); fr.
  - apply multi_frame.
  - unfold merge_other. destruct (w_pass w) as [[p|] w1] eqn:E; apply w_pass_keeps in E; [|fr].
    destruct (w_read w1 (arg0 c)) as [[d|] w2] eqn:Er; apply w_read_keeps in Er.
    2:{ fr. eapply keeps_trans; eauto. }
    eapply frame_keeps; [eapply keeps_trans; eauto|]. apply frame_then; [fr|]. intros [o|] w3 _ _; [|fr].
    destruct (w_now w3) as [t w4] eqn:En. apply w_now_keeps in En. eapply frame_keeps; [exact En|]. apply frame_then; [fr|].
    intros r w5 _ _. fr.
Qed.

(** *** Go values *)
Lemma merge_loop_go l : forall s acc s' acc', go_store s -> Forall (fun kv => forall r, snd kv = Some r -> go_rec r) l ->
  merge_loop l s acc = Ret (s', acc') -> go_store s'.
Proof.
  induction l as [|[k v] l IH]; intros s acc s' acc' G F; cbn [merge_loop].
  { intros [= <- _]. exact G. }
  apply Forall_cons in F as [Fv F]. cbn in Fv.
  destruct (match recs s !! k with None => Ret (v, true) | Some r => rec_merge r v end) as [[v' b]|] eqn:Ev; cbn [obind fst snd]; [|discriminate].
  assert (forall r, v' = Some r -> go_rec r) as Gv.
  { destruct (recs s !! k) as [r0|] eqn:Er.
    - unfold rec_merge in Ev. destruct r0 as [a|], v as [b0|]; try discriminate. destruct (decide _); injection Ev as <- <-; intros r [= <-].
      + unfold recs in Er. destruct (sRecs s) as [m0|] eqn:Es; cbn in Er; [|rewrite lookup_empty in Er; discriminate].
        destruct G as (_ & _ & G). eauto.
      + eauto.
    - injection Ev as <- <-. exact Fv. }
  destruct (set_rec s k v') as [s1|] eqn:Es; cbn [obind]; [|discriminate].
  assert (go_store s1) as G1.
  { destruct v' as [r|]; [eapply go_set; eauto; apply Gv; reflexivity|].
    apply set_rec_ret in Es as (m0 & Em & ->). destruct G as (A & B & G). split_and!; auto. cbn. intros m' q r' [= <-] H.
    destruct (decide (q = k)) as [->|N]; [rewrite lookup_insert in H; discriminate|]. rewrite lookup_insert_ne in H by congruence. eauto. }
  destruct b; [destruct v' as [r|]; [|discriminate]|]; apply IH; auto.
Qed.
Lemma add_plain_go s c w s' w' : good_clock w -> go_store s -> add_plain s c w = Done s' w' -> go_store s'.
Proof.
  intros K G.
  assert (forall r, match w_pass w with
    | (None, w) => Fail w
    | (Some p, w) =>
        if decide (length p = 0%nat) then Fail w else
        match r with
        | None => Crash w
        | Some r => let '(now, w) := w_now w in lift (set_rec s (arg0 c) (Some (SRec (rLabel r) now (Some p) (rMeta r)))) w
        end
    end = Done s' w' -> go_store s') as A.
  { intros r. destruct (w_pass w) as [[p|] w1] eqn:E; [|discriminate]. apply w_pass_keeps in E. apply (keeps_clock _ _ E) in K.
    destruct (decide _); [discriminate|]. destruct r; [|discriminate]. destruct (w_now w1) as [t w2] eqn:En.
    pose proof (w_now_int64 _ _ _ K En). intros H2. apply lift_done in H2 as [H2 _]. eapply go_set; eauto. assumption. }
  unfold add_plain. destruct (recs s !! arg0 c) as [r|]; [destruct (cOver c)|]; [apply A|discriminate|apply (A (Some _))].
Qed.
Lemma multi_go n : forall s c w s' w', good_clock w -> go_store s -> multi n s c w = Done s' w' -> go_store s'.
Proof.
  induction n as [|n IH]; intros s c w s' w' K G; cbn [multi]; [discriminate|].
  destruct (w_line w) as [[name|] w1] eqn:E; [|discriminate]. apply w_line_keeps in E. apply (keeps_clock _ _ E) in K.
  destruct (decide (name = [])); [intros [= <- _]; exact G|].
  assert (forall r, match w_pass w1 with
    | (None, w) => Fail w
    | (Some p, w) =>
        if decide (length p = 0%nat) then multi n s c w else
        match r with
        | None => Crash w
        | Some r => let '(now, w) := w_now w in
                    let* (s, w) := lift (set_rec s name (Some (SRec (rLabel r) now (Some p) (rMeta r)))) w in multi n s c w
        end
    end = Done s' w' -> go_store s') as A.
  { intros r. destruct (w_pass w1) as [[p|] w2] eqn:Ep; [|discriminate]. apply w_pass_keeps in Ep. apply (keeps_clock _ _ Ep) in K.
    destruct (decide _); [eauto|]. destruct r; [|discriminate]. destruct (w_now w2) as [t w3] eqn:En.
    pose proof (w_now_int64 _ _ _ K En) as I. apply w_now_keeps in En. apply (keeps_clock _ _ En) in K.
    intros H. apply then_done in H as (s1 & w4 & H1 & H2). apply lift_done in H1 as [H1 ->]. eapply IH; [exact K| |exact H2]. eapply go_set; eauto. exact I. }
  destruct (recs s !! name) as [r|]; [destruct (cOver c)|]; [apply A|eauto|apply (A (Some _))].
Qed.
Lemma slot_go s k r : go_store s -> recs s !! k = Some (Some r) -> go_rec r.
Proof.
  intros (_ & _ & G) H. unfold recs in H. destruct (sRecs s) as [m|] eqn:E; cbn in H; [|rewrite lookup_empty in H; discriminate]. eauto.
Qed.
Lemma run_go n m x s c w s' w' : good_clock w -> go_store s -> run n m x s c w = Done s' w' -> go_store s'.
Proof.
  intros K G. destruct x; cbn [run].
  - unfold show_secret. destruct (recs s !! arg0 c) as [[r|]|]; try discriminate. intros [= <- _]. exact G.
  - unfold add_secret. destruct (cMeta c); [|apply add_plain_go; assumption].
    unfold add_meta. intros H. apply then_done in H as (s1 & w1 & H1 & H2).
    assert (go_store s1 /\ good_clock w1) as [G1 K1].
    { destruct (store_has s (arg0 c)); [injection H1 as <- <-; auto|]. split; [eapply add_plain_go; eauto|].
      eapply keeps_clock; [|exact K]. apply (add_plain_frame s c w). rewrite H1. reflexivity. }
    destruct (recs s1 !! arg0 c) as [[r|]|]; try discriminate. apply then_done in H2 as (md & w2 & H2 & H3).
    destruct (w_now w2) as [t w3] eqn:En.
    assert (good_clock w2) as K2 by (eapply keeps_clock; [|exact K1]; eapply meta_loop_frame; rewrite H2; reflexivity).
    pose proof (w_now_int64 _ _ _ K2 En). apply lift_done in H3 as [H3 _]. eapply go_set; eauto. assumption.
  - intros [= <- _]. exact G.
  - unfold chpass. destruct (w_pass w) as [[p|] w1]; [|discriminate]. destruct (decide _); [discriminate|]. intros [= <- _]. exact G.
  - unfold remove_secret. destruct (cMeta c).
    + unfold remove_meta. destruct (recs s !! arg0 c) as [[r|]|]; try discriminate. intros H. apply then_done in H as (md & w2 & H2 & H3).
      destruct (w_now w2) as [t w3] eqn:En.
      assert (good_clock w2) as K2 by (eapply keeps_clock; [|exact K]; eapply unmeta_loop_frame; rewrite H2; reflexivity).
      pose proof (w_now_int64 _ _ _ K2 En). apply lift_done in H3 as [H3 _]. eapply go_set; eauto. assumption.
    + destruct (store_has s (arg0 c)); [|discriminate]. intros [= <- _]. apply go_del, G.
  - apply multi_go; assumption.
  - unfold merge_other. destruct (w_pass w) as [[p|] w1] eqn:E; [|discriminate]. apply w_pass_keeps in E. apply (keeps_clock _ _ E) in K.
    destruct (w_read w1 (arg0 c)) as [[d|] w2] eqn:Er; [|discriminate]. apply w_read_keeps in Er. apply (keeps_clock _ _ Er) in K.
    intros H. apply then_done in H as (o & w3 & H1 & H2). apply lift_done in H1 as [U ->]. destruct o as [o|]; [|discriminate].
    destruct (w_now w2) as [t w4] eqn:En. pose proof (w_now_int64 _ _ _ K En). apply then_done in H2 as (r & w5 & H2 & H3). injection H3 as <- _.
    apply lift_done in H2 as [H2 _]. unfold store_merge in H2.
    destruct (merge_loop (map_to_list (recs o)) s []) as [[s1 l1]|] eqn:Em; cbn in H2; [|discriminate]. injection H2 as <-. cbn.
    apply go_time; [|assumption]. eapply merge_loop_go; [exact G| |exact Em].
    apply Forall_forall. intros [k v] I r Ev. cbn in Ev. subst v. apply elem_of_map_to_list in I. apply unmarshal_good in U as [U _]. eapply slot_go; [apply good_go, U|exact I].
Qed.

(** *** Whole runs *)
Lemma run_cmd_done n m x path c w w' : plain_path path -> good_clock w -> run_cmd n m x path c w = Done tt w' ->
  (required x <= length (cArgs c))%nat /\
  exists pass s w1 s1 w2, wPw w = Some pass :: wPw w1 /\ opens (wFs w) path m pass s /\ good_store s /\ sPass s = Some pass /\
    keeps w w1 /\ wIn w1 = wIn w /\ wClk w1 = wClk w /\ wRng w1 = wRng w /\ wOut w1 = wOut w /\
    run n m x s c w1 = Done s1 w2 /\ go_store s1 /\
    (should_write x = true ->
       saved (wFs w') path m (SStore (sVersion s1) (nth 0 (wClk w2) 0) (sRecs s1) (sPass s1)) /\
       sound (SStore (sVersion s1) (nth 0 (wClk w2) 0) (sRecs s1) (sPass s1))) /\
    (should_write x = false -> w' = w2).
Proof.
  intros P K. unfold run_cmd. destruct (decide _) as [Lt|Lt]; [discriminate|]. intros H. split; [lia|].
  apply then_done in H as (s & w1 & H1 & H). apply then_done in H as (s1 & w2 & H2 & H).
  destruct (load_store_done _ _ _ _ _ P H1) as (pass & E1 & O & G & Ep & Kw & E2 & E3 & E4 & E5).
  assert (good_clock w1) as K1 by (eapply keeps_clock; eauto).
  assert (go_store s1) as G1 by (eapply run_go; [exact K1|apply good_go, G|exact H2]).
  exists pass, s, w1, s1, w2. split_and!; auto; try apply G; try apply Kw; try apply G1.
  - intros S. rewrite S in H. destruct (w_now w2) as [t w3] eqn:En.
    assert (good_clock w2) as K2 by (eapply keeps_clock; [|exact K1]; eapply run_frame; rewrite H2; reflexivity).
    pose proof (w_now_int64 _ _ _ K2 En). apply w_now_eq in En as [-> _]. eapply write_store_done; [exact P| |exact H]. apply go_time; assumption.
  - intros S. rewrite S in H. injection H as <-. reflexivity.
Qed.
Lemma run_cmd_read_only n m x path c w w' : should_write x = false -> ends (run_cmd n m x path c w) w' -> wFs w' = wFs w.
Proof.
  intros S E. apply keeps_fs. eapply frame_ends; [|exact E]. unfold run_cmd. destruct (decide _); [fr|].
  apply frame_then; [apply load_store_frame|]. intros s w1 _ _. apply frame_then; [apply run_frame|]. intros s1 w2 _ _. rewrite S. fr.
Qed.
Lemma run_cmd_fail n m x path c w w' : (run_cmd n m x path c w = Fail w' /\ disk_ok w) \/ run_cmd n m x path c w = Crash w' -> wFs w' = wFs w.
Proof.
  intros H. apply keeps_fs.
  assert ((exists s1 w2, keeps w w2 /\ exists s w1, load_store path m w = Done s w1 /\ run n m x s c w1 = Done s1 w2) \/ frame w (run_cmd n m x path c w)) as D.
  { unfold run_cmd. destruct (decide _); [right; fr|]. pose proof (load_store_frame path m w) as Fl.
    destruct (load_store path m w) as [s w1|w1|w1|] eqn:El; cbn [then_]; [|right; exact Fl..|right; fr].
    assert (keeps w w1) as K1 by (apply Fl; reflexivity). pose proof (run_frame n m x s c w1) as Fr.
    destruct (run n m x s c w1) as [s1 w2|w2|w2|] eqn:Er; cbn [then_].
    - left. exists s1, w2. split; [eapply keeps_trans; [exact K1|apply Fr; reflexivity]|eauto].
    - right. eapply frame_keeps; [exact K1|]. exact Fr.
    - right. eapply frame_keeps; [exact K1|]. exact Fr.
    - right. fr. }
  destruct D as [(s1 & w2 & K2 & s & w1 & El & Er)|F].
  - unfold run_cmd in H. destruct (decide _); [destruct H as [[[= ->] _]|H]; [apply keeps_refl|discriminate]|]. rewrite El in H. cbn [then_] in H. rewrite Er in H. cbn [then_] in H.
    destruct (should_write x).
    + destruct (w_now w2) as [t w3] eqn:En. apply w_now_keeps in En. destruct H as [[H Dk]|H].
      * eapply keeps_trans; [exact K2|]. eapply keeps_trans; [exact En|]. eapply write_store_frame; [|exact H].
        eapply keeps_disk; [exact En|]. eapply keeps_disk; eauto.
      * exfalso. eapply write_store_no_crash, H.
    + destruct H as [[H _]|H]; discriminate.
  - apply F. destruct H as [[-> _]| ->]; reflexivity.
Qed.
Lemma run_cmd_only n m x path c w w' : ends (run_cmd n m x path c w) w' -> only_changes path (wFs w) (wFs w').
Proof.
  intros E. apply ends_iff in E. unfold run_cmd in E. destruct (decide _); [injection E as <-; intros q _; reflexivity|].
  pose proof (load_store_frame path m w) as Fl. destruct (load_store path m w) as [s w1|w1|w1|]; cbn [then_ res_world] in E; [|injection E as <-..|discriminate].
  2,3: intros q _; rewrite (keeps_fs _ _ (Fl _ eq_refl)); reflexivity.
  pose proof (keeps_fs _ _ (Fl _ eq_refl)) as K1. pose proof (run_frame n m x s c w1) as Fr.
  destruct (run n m x s c w1) as [s1 w2|w2|w2|]; cbn [then_ res_world] in E; [|injection E as <-..|discriminate].
  2,3: intros q _; rewrite (keeps_fs _ _ (Fr _ eq_refl)), K1; reflexivity.
  pose proof (keeps_fs _ _ (Fr _ eq_refl)) as K2. destruct (should_write x).
  - destruct (w_now w2) as [t w3] eqn:En. apply w_now_keeps, keeps_fs in En.
    intros q N. rewrite (write_store_only _ _ _ _ _ (proj2 (ends_iff _ _) E) q N). congruence.
  - injection E as <-. intros q _. congruence.
Qed.
End WithCrypto.

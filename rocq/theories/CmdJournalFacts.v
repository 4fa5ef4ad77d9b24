(** Proofs about CmdJournal.v. *)
From Verif Require Export SpecJournal CmdCliClaims.
Local Open Scope Z_scope.

Section WithCrypto.
Context `{C : Crypto} {L : CryptoLaws}.

Lemma write_store_out s path m w w' : plain_path path -> write_store s path m w = Done tt w' -> wOut w' = wOut w.
Proof.
  intros P. unfold write_store. destruct (marshal_store s m (wRng w)) as [[[[d|] s'] g]|] eqn:E; cbn; [|discriminate|discriminate].
  unfold w_write. rewrite decide_False by apply P. unfold w_raw_write. rewrite decide_False by apply P. cbn [wFate set_rng]. destruct (wFate w); destruct (write_file _ _ _ _) as [[] f]; try discriminate; intros [= <-]; reflexivity.
Qed.
(** *** Runs on a store *)
Definition framed (body : sstore -> world -> res (bool * sstore)) : Prop := forall s w, frame w (body s w).
Definition goes (body : sstore -> world -> res (bool * sstore)) : Prop :=
  forall s w u s' w', good_clock w -> go_store s -> body s w = Done (u, s') w' -> go_store s'.
Lemma with_store_done body path m w w' : framed body -> goes body -> plain_path path -> good_clock w -> with_store body path m w = Done tt w' ->
  exists pass s w1 u s1 w2, wPw w = Some pass :: wPw w1 /\ opens (wFs w) path m pass s /\ good_store s /\ sPass s = Some pass /\
    keeps w w1 /\ wIn w1 = wIn w /\ wClk w1 = wClk w /\ wRng w1 = wRng w /\ wOut w1 = wOut w /\
    body s w1 = Done (u, s1) w2 /\ go_store s1 /\
    (u = true -> saved (wFs w') path m (SStore (sVersion s1) (nth 0 (wClk w2) 0) (sRecs s1) (sPass s1)) /\ wOut w' = wOut w2) /\
    (u = false -> w' = w2).
Proof.
  intros Fr Go P K. unfold with_store. intros H.
  apply then_done in H as (s & w1 & H1 & H). apply then_done in H as ([u s1] & w2 & H2 & H). cbn [fst snd] in H.
  destruct (load_store_done _ _ _ _ _ P H1) as (pass & E1 & O & G & Ep & Kw & E2 & E3 & E4 & E5).
  assert (good_clock w1) as K1 by (eapply keeps_clock; eauto).
  assert (go_store s1) as G1 by (eapply Go; [exact K1|apply good_go, G|exact H2]).
  exists pass, s, w1, u, s1, w2. do 11 (split; [assumption|]). split.
  - intros ->. destruct (w_now w2) as [t w3] eqn:En.
    assert (good_clock w2) as K2 by (eapply keeps_clock; [|exact K1]; eapply Fr; rewrite H2; reflexivity).
    pose proof (w_now_int64 _ _ _ K2 En). apply w_now_eq in En as (-> & _ & _ & _ & _ & Eo). split; [|rewrite <- Eo; eapply write_store_out; eauto].
    eapply write_store_done; [exact P| |exact H]. apply go_time; assumption.
  - intros ->. injection H as <-. reflexivity.
Qed.
Lemma with_store_read_only body path m w w' : framed body -> (forall s w u s' w', body s w = Done (u, s') w' -> u = false) ->
  ends (with_store body path m w) w' -> wFs w' = wFs w.
Proof.
  intros Fr N E. apply keeps_fs. eapply frame_ends; [|exact E]. unfold with_store.
  apply frame_then; [apply load_store_frame|]. intros s w1 _ _. apply frame_then; [apply Fr|]. intros [u s1] w2 Eb _. apply N in Eb. subst u. cbn. apply frame_done, keeps_refl.
Qed.
Lemma with_store_fail body path m w w' : framed body -> (with_store body path m w = Fail w' /\ disk_ok w) \/ with_store body path m w = Crash w' -> wFs w' = wFs w.
Proof.
  intros Fb H. apply keeps_fs. unfold with_store in H. pose proof (load_store_frame path m w) as Fl.
  destruct (load_store path m w) as [s w1|w1|w1|] eqn:El; cbn [then_] in H;
    [|destruct H as [[[= <-] _]|[=]]; apply Fl; reflexivity|destruct H as [[[=] _]|[= <-]]; apply Fl; reflexivity|destruct H as [[[=] _]|[=]]].
  assert (keeps w w1) as K1 by (apply Fl; reflexivity). pose proof (Fb s w1) as Fr.
  destruct (body s w1) as [[u s1] w2|w2|w2|] eqn:Er; cbn [then_ fst snd] in H;
    [|destruct H as [[[= <-] _]|[=]]; eapply keeps_trans; [exact K1|apply Fr; reflexivity]
     |destruct H as [[[=] _]|[= <-]]; eapply keeps_trans; [exact K1|apply Fr; reflexivity]|destruct H as [[[=] _]|[=]]].
  assert (keeps w w2) as K2 by (eapply keeps_trans; [exact K1|apply Fr; reflexivity]).
  destruct u; [|destruct H as [[[=] _]|[=]]]. destruct (w_now w2) as [t w3] eqn:En. apply w_now_keeps in En. destruct H as [[H Dk]|H].
  - eapply keeps_trans; [exact K2|]. eapply keeps_trans; [exact En|]. eapply write_store_frame; [|exact H].
    eapply keeps_disk; [exact En|]. eapply keeps_disk; eauto.
  - exfalso. eapply write_store_no_crash, H.
Qed.
Lemma with_store_only body path m w w' : framed body -> ends (with_store body path m w) w' -> only_changes path (wFs w) (wFs w').
Proof.
  intros Fb E. apply ends_iff in E. unfold with_store in E. pose proof (load_store_frame path m w) as Fl.
  destruct (load_store path m w) as [s w1|w1|w1|] eqn:El; cbn [then_] in E; [|injection E as <-; intros q _; rewrite (keeps_fs w w1); [reflexivity|apply Fl; reflexivity]..|discriminate].
  assert (keeps w w1) as K1 by (apply Fl; reflexivity). pose proof (Fb s w1) as Fr.
  destruct (body s w1) as [[u s1] w2|w2|w2|] eqn:Er; cbn [then_ fst snd] in E; [|injection E as <-; intros q _; rewrite (keeps_fs w w2); [reflexivity|eapply keeps_trans; [exact K1|apply Fr; reflexivity]]..|discriminate].
  assert (keeps w w2) as K2 by (eapply keeps_trans; [exact K1|apply Fr; reflexivity]).
  destruct u; [|injection E as <-; intros q _; rewrite (keeps_fs _ _ K2); reflexivity].
  destruct (w_now w2) as [t w3] eqn:En. apply w_now_keeps in En. apply ends_iff, write_store_only in E. intros q N. rewrite (E q N), (keeps_fs _ _ En), (keeps_fs _ _ K2). reflexivity.
Qed.
Lemma with_store_works body path m w pass ps s u s1 w2 salt nonce g1 g2 : plain_path path -> wPw w = Some pass :: ps -> opens (wFs w) path m pass s ->
  (forall w1, wPw w1 = ps -> wFs w1 = wFs w -> wIn w1 = wIn w -> wClk w1 = wClk w -> wRng w1 = wRng w -> wFate w1 = wFate w -> wOut w1 = wOut w -> body s w1 = Done (u, s1) w2) ->
  disk_ok w2 -> sound (SStore (sVersion s1) (nth 0 (wClk w2) 0) (sRecs s1) (sPass s1)) -> m = 0 \/ m = 1 ->
  length salt = 32%nat -> length nonce = 24%nat -> delivers (wRng w2) salt g1 -> delivers g1 nonce g2 ->
  exists w', with_store body path m w = Done tt w'.
Proof.
  intros P Ew O B Dk So M L1 L2 D1 D2. destruct O as (d & Ef & U). unfold with_store, load_store, w_pass. rewrite Ew. unfold w_exists, exists_. cbn [wFs]. rewrite Ef.
  rewrite bool_decide_eq_false_2 by apply P. cbn [negb andb fst]. rewrite w_read_plain by exact P. cbn [wFs]. rewrite Ef. cbn [lift then_]. rewrite U. cbn [lift then_].
  rewrite B by reflexivity. cbn [then_ fst snd]. destruct u; [|eauto]. destruct (w_now w2) as [t w3] eqn:En. pose proof (w_now_keeps _ _ _ En) as K.
  apply w_now_eq in En as (-> & _ & _ & _ & Rg & _). eapply write_store_succeeds; eauto; [apply P|eapply keeps_disk; eauto|rewrite Rg; exact D1].
Qed.

Lemma init_any_only path m w w' : ends (init_any path m w) w' -> only_changes path (wFs w) (wFs w').
Proof.
  intros E. apply ends_iff in E. unfold init_any in E. destruct (w_pass w) as [[pass|] w1] eqn:Ep; apply w_pass_keeps, keeps_fs in Ep.
  2:{ injection E as <-. intros q _. rewrite Ep. reflexivity. }
  destruct (w_now w1) as [t w2] eqn:En. apply w_now_keeps, keeps_fs in En.
  destruct (marshal_store _ _ _) as [[[[d|] s'] g]|]; cbn in E.
  - destruct (w_write (set_rng w2 g) path d) as [[] w3] eqn:W; apply w_write_only in W; cbn in W; rewrite En, Ep in W.
    + destruct (unmarshal_store d pass m) as [[s2|]|]; cbn in E; injection E as <-; exact W.
    + injection E as <-. exact W.
  - injection E as <-. intros q _. cbn. congruence.
  - injection E as <-. intros q _. congruence.
Qed.
Lemma init_any_exact path m w w' : plain_path path -> good_clock w -> init_any path m w = Done tt w' ->
  exists pass, head (wPw w) = Some (Some pass) /\ only_changes path (wFs w) (wFs w') /\
    opens (wFs w') path m pass (SStore 1 (nth 0 (wClk w) 0) (Some ∅) (Some pass)).
Proof.
  intros P K. unfold init_any. destruct (w_pass w) as [[pass|] w1] eqn:Ep; [|discriminate]. pose proof (w_pass_keeps _ _ _ Ep) as K1.
  apply w_pass_eq in Ep as (E1 & E2 & E3 & _). destruct (w_now w1) as [t w2] eqn:En.
  pose proof (w_now_int64 _ _ _ (keeps_clock _ _ K1 K) En) as It. pose proof (w_now_keeps _ _ _ En) as K2. apply w_now_eq in En as (-> & _).
  destruct (marshal_store (new_store (nth 0 (wClk w1) 0) pass) m (wRng w2)) as [[[[d|] s'] g]|] eqn:E; cbn; [|discriminate|discriminate].
  destruct (w_write (set_rng w2 g) path d) as [[] w3] eqn:W; [|discriminate].
  destruct (marshal_roundtrip _ _ _ _ _ _ (go_new _ pass It) E) as (s2 & U & _ & T). cbn [new_store sPass default] in U. unfold default, id in U. rewrite U. cbn.
  intros [= <-]. exists pass. rewrite E1. pose proof (w_write_only _ _ _ _ _ W) as Oc. apply w_write_ok in W; [|exact P]. cbn in W, Oc.
  rewrite (keeps_fs _ _ K2), (keeps_fs _ _ K1) in *. split_and!; auto. exists d. rewrite W, lookup_insert. split; [reflexivity|].
  rewrite U. rewrite T, E3; [reflexivity|]. intros mm k v [= <-]. rewrite lookup_empty. discriminate.
Qed.

(** *** The commands of journal *)
Lemma list_framed c s w : frame w (list_entries s c w).
Proof. apply frame_then; [apply frame_lift, keeps_refl|]. intros ls w1 _ K. apply frame_done, w_print_keeps. Qed.
Lemma show_framed c s w : frame w (show_entry s c w).
Proof. unfold show_entry. destruct (recs s !! jarg0 c) as [[r|]|]; [apply frame_done, w_print_keeps|apply frame_crash, keeps_refl|apply frame_fail, keeps_refl]. Qed.
Lemma edit_framed c s w : frame w (edit_entry s c w).
Proof.
  unfold edit_entry. destruct (recs s !! jarg0 c) as [[r|]|]; [|apply frame_crash, keeps_refl|apply frame_fail, keeps_refl].
  destruct (jEdit c _); [|apply frame_fail, keeps_refl]. apply frame_then; [apply frame_lift, keeps_refl|]. intros s1 w1 _ _. apply frame_done, keeps_refl.
Qed.
Lemma new_framed c t s w : frame w (new_entry s t c w).
Proof.
  unfold new_entry. destruct (w_now w) as [z w1] eqn:E. apply w_now_keeps in E. destruct (jEdit c _); [|apply frame_fail, E].
  destruct (w_now w1) as [z2 w2] eqn:E2. apply w_now_keeps in E2. eapply frame_keeps; [exact E|]. apply frame_then; [apply frame_lift, E2|]. intros s1 w3 _ _. apply frame_done, keeps_refl.
Qed.
Lemma write_framed c s w : frame w (write_new s c w).
Proof.
  unfold write_new. destruct (store_has _ _); [|apply new_framed]. destruct (w_line w) as [[a|] w1] eqn:E; apply w_line_keeps in E; [|apply frame_fail, E].
  eapply frame_keeps; [exact E|]. destruct (_ || _); [apply edit_framed|]. destruct (w_line w1) as [[t|] w2] eqn:E2; apply w_line_keeps in E2; [|apply frame_fail, E2].
  eapply frame_keeps; [exact E2|]. destruct (decide _); [apply frame_fail, keeps_refl|apply new_framed].
Qed.
Lemma jrun_framed x c : framed (fun s w => jrun x s c w).
Proof. intros s w. destruct x; cbn; [apply edit_framed|apply list_framed|apply show_framed|apply write_framed]. Qed.

Lemma edit_done s c w u s' w' : edit_entry s c w = Done (u, s') w' ->
  u = true /\ w' = w /\ exists r d, slot s (jarg0 c) = Some (Some r) /\ jEdit c (default [] (rSecret r)) = Some d /\
    set_rec s (jarg0 c) (Some (SRec (rLabel r) (rTime r) (Some d) (rMeta r))) = Ret s'.
Proof.
  unfold edit_entry. rewrite <- slot_recs. destruct (slot s (jarg0 c)) as [[r|]|] eqn:E; try discriminate. destruct (jEdit c _) as [d|] eqn:Ed; [|discriminate].
  intros H. apply then_done in H as (s1 & w1 & H & [= <- <- <-]). apply lift_done in H as [H ->]. eauto 10.
Qed.
Lemma new_done s t c w u s' w' : new_entry s t c w = Done (u, s') w' ->
  u = true /\ wIn w' = wIn w /\ wClk w' = drop 2 (wClk w) /\ exists d, jEdit c (t ++ [x0a] ++ jFmt c (nth 0 (wClk w) 0) ++ [x0a; x0a] ++ bs "-----" ++ [x0a]) = Some d /\
    set_rec s t (Some (SRec t (nth 1 (wClk w) 0) (Some d) None)) = Ret s'.
Proof.
  unfold new_entry. destruct (w_now w) as [z w1] eqn:E. apply w_now_eq in E as (-> & Ec & Ei & _). destruct (jEdit c _) as [d|]; [|discriminate].
  destruct (w_now w1) as [z2 w2] eqn:E2. apply w_now_eq in E2 as (-> & Ec2 & Ei2 & _). intros H. apply then_done in H as (s1 & w3 & H & [= <- <- <-]). apply lift_done in H as [H ->].
  rewrite Ec in *. split; [reflexivity|]. split; [congruence|]. split; [rewrite Ec2, drop_drop; reflexivity|]. exists d. split; [reflexivity|].
  replace (nth 1 (wClk w) 0) with (nth 0 (drop 1 (wClk w)) 0); [exact H|]. destruct (wClk w); reflexivity.
Qed.
Lemma edit_goes s c w u s' w' : go_store s -> edit_entry s c w = Done (u, s') w' -> go_store s'.
Proof.
  intros G H. apply edit_done in H as (_ & _ & r & d & Es & _ & Sr). eapply go_set; [exact G| |exact Sr]. cbn. rewrite slot_recs in Es. apply (slot_go _ _ _ G Es).
Qed.
Lemma clock_nth w n : good_clock w -> int64 (nth n (wClk w) 0).
Proof.
  unfold good_clock. intros K. destruct (decide (n < length (wClk w))%nat) as [Hn|Hn].
  - rewrite Forall_forall in K. apply K. apply elem_of_list_In, nth_In, Hn.
  - rewrite nth_overflow by lia. unfold int64. lia.
Qed.
Lemma new_goes s t c w u s' w' : good_clock w -> go_store s -> new_entry s t c w = Done (u, s') w' -> go_store s'.
Proof.
  intros K G H. apply new_done in H as (_ & _ & _ & d & _ & Sr). eapply go_set; [exact G| |exact Sr]. cbn. apply clock_nth, K.
Qed.
Lemma jrun_goes x c : goes (fun s w => jrun x s c w).
Proof.
  intros s w u s' w' K G H. destruct x; cbn in H.
  - eapply edit_goes; eauto.
  - apply then_done in H as (ls & w1 & _ & [= <- <- <-]). exact G.
  - unfold show_entry in H. destruct (recs s !! jarg0 c) as [[r|]|]; try discriminate. injection H as <- <- <-. exact G.
  - unfold write_new in H. destruct (store_has _ _); [|eapply new_goes; eauto]. destruct (w_line w) as [[a|] w1] eqn:E; [|discriminate]. apply w_line_keeps in E.
    destruct (_ || _); [eapply edit_goes; eauto|]. destruct (w_line w1) as [[t|] w2] eqn:E2; [|discriminate]. apply w_line_keeps in E2. destruct (decide _); [discriminate|].
    eapply new_goes; [|exact G|exact H]. eapply keeps_clock; [exact E2|]. eapply keeps_clock; eauto.
Qed.

(** *** C59 *)
Lemma journal_read_only m e path c w w' : e = JList \/ e = JShow -> ends (journal_run m e path c w) w' -> wFs w' = wFs w.
Proof.
  intros X. unfold journal_run. destruct (decide _). { intros E. apply ends_iff in E. injection E as <-. reflexivity. }
  apply with_store_read_only; [apply jrun_framed|]. intros s w0 u s' w1. destruct X as [-> | ->]; cbn; intros H.
  - apply then_done in H as (ls & w2 & _ & [= <- <- <-]). reflexivity.
  - unfold show_entry in H. destruct (recs s !! jarg0 c) as [[r|]|]; try discriminate. injection H as <- <- <-. reflexivity.
Qed.
Lemma journal_fails m e path c w w' : (journal_run m e path c w = Fail w' /\ disk_ok w) \/ journal_run m e path c w = Crash w' -> wFs w' = wFs w.
Proof.
  unfold journal_run. destruct (decide _). { intros [[[= <-] _]|[=]]. reflexivity. } apply with_store_fail, jrun_framed.
Qed.
Lemma journal_only m i e l wr path c w w' : ends (journal_main m i e l wr path c w) w' -> only_changes path (wFs w) (wFs w').
Proof.
  assert (forall x, ends (journal_run m x path c w) w' -> only_changes path (wFs w) (wFs w')) as A.
  { intros x. unfold journal_run. destruct (decide _). { intros E. apply ends_iff in E. injection E as <-. intros q _. reflexivity. } apply with_store_only, jrun_framed. }
  unfold journal_main. destruct i; [apply init_any_only|]. destruct e; [apply A|]. destruct l; [apply A|]. destruct wr; apply A.
Qed.
(** A run of a command. *)
Lemma journal_done m x path c w w' : plain_path path -> good_clock w -> journal_run m x path c w = Done tt w' ->
  (jrequired x <= length (jArgs c))%nat /\ exists pass s w1 u s1 w2, head (wPw w) = Some (Some pass) /\ opens (wFs w) path m pass s /\ sPass s = Some pass /\
    wIn w1 = wIn w /\ wClk w1 = wClk w /\ wOut w1 = wOut w /\ jrun x s c w1 = Done (u, s1) w2 /\
    (u = true -> saved (wFs w') path m (SStore (sVersion s1) (nth 0 (wClk w2) 0) (sRecs s1) (sPass s1))) /\ (u = false -> w' = w2).
Proof.
  intros P K. unfold journal_run. destruct (decide _) as [|Nl]; [discriminate|]. intros H. split; [lia|].
  apply with_store_done in H as (pass & s & w1 & u & s1 & w2 & E1 & O & G & Ep & Kw & E2 & E3 & E4 & E5 & B & G1 & S1 & S2); [|apply jrun_framed|apply jrun_goes|assumption..].
  exists pass, s, w1, u, s1, w2. rewrite E1. do 7 (split; [auto|]). split; [|exact S2]. intros Eu. apply S1, Eu.
Qed.
Lemma journal_edit m path c w w' : plain_path path -> good_clock w -> journal_run m JEdit path c w = Done tt w' ->
  exists pass s s' title rest r d, head (wPw w) = Some (Some pass) /\ jArgs c = title :: rest /\ opens (wFs w) path m pass s /\ saved (wFs w') path m s' /\
    sPass s' = Some pass /\ sVersion s' = sVersion s /\ same_but title s s' /\
    slot s title = Some (Some r) /\ jEdit c (default [] (rSecret r)) = Some d /\
    slot s' title = Some (Some (SRec (rLabel r) (rTime r) (Some d) (rMeta r))).
Proof.
  intros P K H. apply journal_done in H as (La & pass & s & w1 & u & s1 & w2 & Hp & O & Ep & E2 & E3 & E5 & B & S1 & _); [|assumption..]. cbn in B, La.
  apply edit_done in B as (-> & -> & r & d & Es & Ed & Sr). specialize (S1 eq_refl). destruct (jArgs c) as [|title rest] eqn:Ea; [cbn in La; lia|].
  assert (jarg0 c = title) as Et by (unfold jarg0; rewrite Ea; reflexivity). rewrite Et in *.
  apply set_rec_slots in Sr as (R1 & R2 & R3 & R4). exists pass, s, (SStore (sVersion s1) (nth 0 (wClk w1) 0) (sRecs s1) (sPass s1)), title, rest, r, d.
  do 4 (split; [auto|]). split; [cbn; congruence|]. split; [cbn; congruence|]. split; [intros k N; etransitivity; [exact (R2 k N)|reflexivity]|].
  split; [exact Es|]. split; [exact Ed|exact R1].
Qed.
Lemma journal_write m path c w w' : plain_path path -> good_clock w -> journal_run m JWrite path c w = Done tt w' ->
  exists pass s s' arg rest title, head (wPw w) = Some (Some pass) /\ jArgs c = arg :: rest /\ trimmed arg title /\
    opens (wFs w) path m pass s /\ saved (wFs w') path m s' /\ sPass s' = Some pass /\ sVersion s' = sVersion s /\
    ((* a fresh title, or another one after a refusal to edit *)
     (exists t d, (t = title /\ slot s title = None \/ slot s title <> None /\ t <> [] /\ exists a i i2, read_line (wIn w) = (Some a, i) /\ ~ affirmative a /\ read_line i = (Some t, i2)) /\
        jEdit c (t ++ [x0a] ++ jFmt c (nth 0 (wClk w) 0) ++ [x0a; x0a] ++ bs "-----" ++ [x0a]) = Some d /\
        same_but t s s' /\ slot s' t = Some (Some (SRec t (nth 1 (wClk w) 0) (Some d) None))) \/
     (* editing *)
     (exists a i r d, slot s title <> None /\ read_line (wIn w) = (Some a, i) /\ affirmative a /\
        slot s arg = Some (Some r) /\ jEdit c (default [] (rSecret r)) = Some d /\
        same_but arg s s' /\ slot s' arg = Some (Some (SRec (rLabel r) (rTime r) (Some d) (rMeta r))))).
Proof.
  intros P K H. apply journal_done in H as (La & pass & s & w1 & u & s1 & w2 & Hp & O & Ep & E2 & E3 & E5 & B & S1 & _); [|assumption..]. cbn in B, La.
  destruct (jArgs c) as [|arg rest] eqn:Ea; [cbn in La; lia|].
  assert (jarg0 c = arg) as Et by (unfold jarg0; rewrite Ea; reflexivity).
  assert (forall t w0, wClk w0 = wClk w -> new_entry s t c w0 = Done (u, s1) w2 -> exists d, u = true /\ jEdit c (t ++ [x0a] ++ jFmt c (nth 0 (wClk w) 0) ++ [x0a; x0a] ++ bs "-----" ++ [x0a]) = Some d /\
    same_but t s s1 /\ slot s1 t = Some (Some (SRec t (nth 1 (wClk w) 0) (Some d) None)) /\ sPass s1 = sPass s /\ sVersion s1 = sVersion s) as A.
  { intros t w0 Ec Hn. apply new_done in Hn as (-> & _ & _ & d & Ed & Sr). rewrite Ec in *. apply set_rec_slots in Sr as (R1 & R2 & R3 & R4). eauto 10. }
  unfold write_new in B. rewrite Et in B.
  assert (store_has s (trim_space arg) = true <-> slot s (trim_space arg) <> None) as Hh.
  { unfold store_has. rewrite <- slot_recs. rewrite bool_decide_eq_true. split; [intros [x ->]; discriminate|]. destruct (slot s (trim_space arg)); [eauto|congruence]. }
  destruct (store_has s (trim_space arg)) eqn:Sh.
  - assert (slot s (trim_space arg) <> None) as Hs by (apply Hh; reflexivity). destruct (w_line w1) as [[a|] w3] eqn:El; [|discriminate].
    apply w_line_eq in El as (El & _ & Ec & _). rewrite E2 in El. destruct (_ || _) eqn:Ey.
    + apply affirmative_iff in Ey. apply edit_done in B as (-> & -> & r & d & Es & Ed & Sr). specialize (S1 eq_refl). rewrite Et in *.
      apply set_rec_slots in Sr as (R1 & R2 & R3 & R4). eexists pass, s, _, arg, rest, (trim_space arg). split; [exact Hp|]. split; [reflexivity|]. split; [apply trim_space_spec|].
      split; [exact O|]. split; [exact S1|]. split; [cbn; congruence|]. split; [cbn; congruence|]. right. exists a, (wIn w3), r, d. do 5 (split; [assumption|]).
      split; [intros k N; etransitivity; [exact (R2 k N)|reflexivity]|exact R1].
    + destruct (w_line w3) as [[t|] w4] eqn:El2; [|discriminate]. apply w_line_eq in El2 as (El2 & _ & Ec2 & _). destruct (decide _) as [|Nt]; [discriminate|].
      destruct (A t w4 ltac:(congruence) B) as (d & -> & Ed & R2 & R1 & R3 & R4). specialize (S1 eq_refl).
      eexists pass, s, _, arg, rest, (trim_space arg). split; [exact Hp|]. split; [reflexivity|]. split; [apply trim_space_spec|].
      split; [exact O|]. split; [exact S1|]. split; [cbn; congruence|]. split; [cbn; congruence|]. left. exists t, d. split.
      * right. split; [exact Hs|]. split; [exact Nt|]. exists a, (wIn w3), (wIn w4). split; [exact El|]. split; [|exact El2]. rewrite <- affirmative_iff, Ey. discriminate.
      * split; [exact Ed|]. split; [intros k N; etransitivity; [exact (R2 k N)|reflexivity]|exact R1].
  - destruct (A (trim_space arg) w1 ltac:(congruence) B) as (d & -> & Ed & R2 & R1 & R3 & R4). specialize (S1 eq_refl).
    eexists pass, s, _, arg, rest, (trim_space arg). split; [exact Hp|]. split; [reflexivity|]. split; [apply trim_space_spec|].
    split; [exact O|]. split; [exact S1|]. split; [cbn; congruence|]. split; [cbn; congruence|]. left. exists (trim_space arg), d. split.
    + left. split; [reflexivity|]. destruct (slot s (trim_space arg)); [|reflexivity]. exfalso. assert (false = true); [apply Hh; discriminate|discriminate].
    + split; [exact Ed|]. split; [intros k N; etransitivity; [exact (R2 k N)|reflexivity]|exact R1].
Qed.
Lemma journal_show m path c w w' : plain_path path -> good_clock w -> journal_run m JShow path c w = Done tt w' ->
  exists pass s title rest r, head (wPw w) = Some (Some pass) /\ jArgs c = title :: rest /\ opens (wFs w) path m pass s /\ slot s title = Some (Some r) /\
    wOut w' = wOut w ++ default [] (rSecret r) ++ [x0a] /\ wFs w' = wFs w.
Proof.
  intros P K H. assert (wFs w' = wFs w) as Ef by (eapply journal_read_only; [right; reflexivity|left; eauto]).
  apply journal_done in H as (La & pass & s & w1 & u & s1 & w2 & Hp & O & Ep & E2 & E3 & E5 & B & _ & S2); [|assumption..]. cbn in B, La.
  destruct (jArgs c) as [|title rest] eqn:Ea; [cbn in La; lia|]. unfold show_entry, jarg0 in B. rewrite Ea in B. cbn [nth] in B. rewrite <- slot_recs in B.
  destruct (slot s title) as [[r|]|] eqn:Es; try discriminate. injection B as <- <- <-. specialize (S2 eq_refl). subst w'. exists pass, s, title, rest, r.
  split_and!; auto. cbn. rewrite E5. reflexivity.
Qed.

(** An edited entry is as old as before: merging it into a copy does not carry it
    over. *)
Lemma set_holds s k r : holds s k r <-> slot s k = Some (Some r).
Proof. unfold holds, slot. split; [intros (m & -> & H); exact H|]. destruct (sRecs s); [eauto|discriminate]. Qed.
Lemma journal_edit_merge m path c w w' : plain_path path -> good_clock w -> journal_run m JEdit path c w = Done tt w' ->
  exists pass s s' title rest r r', head (wPw w) = Some (Some pass) /\ jArgs c = title :: rest /\ opens (wFs w) path m pass s /\ saved (wFs w') path m s' /\
    holds s title r /\ holds s' title r' /\ jEdit c (default [] (rSecret r)) = rSecret r' /\
    forall o now order, no_nil o -> no_nil s' -> order ≡ₚ map_to_list (recs s') -> holds o title r ->
      exists o' ts, store_merge now order o = Ret (o', ts) /\ holds o' title r.
Proof.
  intros P K H. destruct (journal_edit _ _ _ _ _ P K H) as (pass & s & s' & title & rest & r & d & H1 & H2 & H3 & H4 & H5 & H6 & H7 & H8 & H9 & H10).
  eexists pass, s, s', title, rest, r, _. do 4 (split; [assumption|]). split; [apply set_holds, H8|]. split; [apply set_holds, H10|]. split; [exact H9|].
  intros o now order N1 N2 Po Ho. destruct (merge_exact now order o s' N1 N2 Po) as (o' & ts & E & _ & _ & _ & _ & A & _). eexists o', _. split; [exact E|].
  apply (A title (Some r) (Some (SRec (rLabel r) (rTime r) (Some d) (rMeta r))) Ho ltac:(apply set_holds, H10) (Some r)). constructor. cbn. lia.
Qed.
(** A refusal to edit, then the title of another entry: that entry is replaced. *)
Lemma journal_retitle m path c w pass ps s arg rest a t i i2 old d salt nonce g1 g2 : m = 0 \/ m = 1 -> plain_path path -> disk_ok w -> wPw w = Some pass :: ps ->
  opens (wFs w) path m pass s -> jArgs c = arg :: rest -> (exists title, trimmed arg title /\ slot s title <> None) ->
  read_line (wIn w) = (Some a, i) -> ~ affirmative a -> read_line i = (Some t, i2) -> t <> [] -> slot s t = Some (Some old) -> sVersion s = 1 ->
  jEdit c (t ++ [x0a] ++ jFmt c (nth 0 (wClk w) 0) ++ [x0a; x0a] ++ bs "-----" ++ [x0a]) = Some d ->
  good_clock w -> nth 2 (wClk w) 0 <> 0 -> length salt = 32%nat -> length nonce = 24%nat -> delivers (wRng w) salt g1 -> delivers g1 nonce g2 ->
  exists w' s', journal_run m JWrite path c w = Done tt w' /\ saved (wFs w') path m s' /\ same_but t s s' /\
    slot s' t = Some (Some (SRec t (nth 1 (wClk w) 0) (Some d) None)).
Proof.
  intros M P Dk Ew O Ea (title & Tr & Hs) R1 Na R2 Nt So V1 Ed K Nz L1 L2 D1 D2.
  assert (trim_space arg = title) as Et by (eapply trimmed_unique; [apply trim_space_spec|exact Tr]).
  assert (jarg0 c = arg) as Eg by (unfold jarg0; rewrite Ea; reflexivity).
  pose proof O as O0. destruct O as (dd & Ef & U). destruct (unmarshal_good _ _ _ _ U) as [G Ep].
  destruct (set_rec s t (Some (SRec t (nth 1 (wClk w) 0) (Some d) None))) as [s1|] eqn:Sr.
  2:{ exfalso. unfold set_rec in Sr. unfold slot in So. destruct (sRecs s); discriminate. }
  pose proof (set_rec_slots _ _ _ _ Sr) as (Q1 & Q2 & Q3 & Q4).
  set (w2 := World (wFs w) i2 ps (drop 2 (wClk w)) (wRng w) (wFate w) (wOut w)).
  assert (exists w', journal_run m JWrite path c w = Done tt w') as [w' E].
  { unfold journal_run. rewrite decide_False by (rewrite Ea; cbn; lia).
    eapply (with_store_works _ path m w pass ps s true s1 w2); eauto.
    - intros w1 F1 F2 F3 F4 F5 F6 F7. cbn. unfold write_new. rewrite Eg, Et.
      assert (store_has s title = true) as -> by (unfold store_has; rewrite <- slot_recs, bool_decide_eq_true; destruct (slot s title); [eauto|congruence]).
      unfold w_line. rewrite F3, R1. destruct (_ || _) eqn:Ey; [apply affirmative_iff in Ey; contradiction|]. cbn [wIn set_in]. rewrite R2. rewrite decide_False by exact Nt.
      unfold new_entry, w_now. cbn [wClk set_in]. rewrite F4. replace (match wClk w with [] => 0 | z :: _ => z end) with (nth 0 (wClk w) 0) by (destruct (wClk w); reflexivity).
      destruct w1 as [a1 a2 a3 a4 a5 a6 a7]. cbn in *. subst. destruct (wClk w) as [|z [|z2 zs]]; cbn in *; rewrite Ed, Sr; reflexivity.
    - unfold sound. cbn. rewrite Q3, Q4, Ep, V1. split_and!; try congruence.
      + destruct (wClk w) as [|z1 [|z2 [|z3 zs]]]; cbn in *; congruence.
      + unfold slot in Q1. destruct (sRecs s1); congruence. }
  destruct (journal_write _ _ _ _ _ P K E) as (pass' & s0 & s' & arg' & rest' & title' & F1 & F2 & F3 & F4 & F5 & _ & _ & F6).
  rewrite Ew in F1. injection F1 as <-. rewrite Ea in F2. injection F2 as <- <-. assert (title' = title) as -> by (eapply trimmed_unique; eauto).
  assert (s0 = s) as ->. { destruct F4 as (d4 & F4 & U4). rewrite Ef in F4. injection F4 as <-. rewrite U in U4. congruence. }
  exists w', s'. split; [exact E|]. split; [exact F5|]. destruct F6 as [(t' & d' & [[-> F6]|(_ & _ & a' & i' & i2' & F6 & _ & F7)] & F8 & F9 & F10)|(a' & i' & r & d' & _ & F6 & F7 & _)].
  - contradiction.
  - rewrite R1 in F6. injection F6 as <- <-. rewrite R2 in F7. injection F7 as <- <-. rewrite Ed in F8. injection F8 as <-. auto.
  - rewrite R1 in F6. injection F6 as <- <-. contradiction.
Qed.

(** *** C60 *)
Definition times (es : list (bytes * srec)) : list Z := map (fun e => rTime (snd e)) es.
Definition some_snd (e : bytes * srec) : bytes * option srec := (fst e, Some (snd e)).
Lemma list_scan_some es ts labels : exists f, list_scan (map some_snd es) ts labels = Ret (ts ++ times es, f) /\
  (forall t k, f !! t = Some k -> labels !! t = Some k \/ exists r, (k, r) ∈ es /\ rTime r = t) /\
  (forall t, t ∈ times es \/ is_Some (labels !! t) -> is_Some (f !! t)) /\
  (forall k r es1, es = es1 ++ [(k, r)] -> f !! rTime r = Some k).
Proof.
  revert ts labels. induction es as [|[k r] es IH]; intros ts labels.
  - exists labels. cbn. rewrite app_nil_r. split_and!; auto.
    + intros t [H|H]; [|exact H]. inversion H.
    + intros k r [|? ?]; discriminate.
  - cbn. destruct (IH (ts ++ [rTime r]) (<[rTime r := k]> labels)) as (f & -> & A & B & D). exists f. rewrite <- app_assoc. split; [reflexivity|]. split_and!.
    + intros t k' Hf. destruct (A t k' Hf) as [Hl|(r' & H1 & H2)].
      * destruct (decide (t = rTime r)) as [->|N]; [rewrite lookup_insert in Hl; injection Hl as <-; right; exists r; split; [left|reflexivity]|rewrite lookup_insert_ne in Hl by congruence; auto].
      * right. exists r'. split; [right; exact H1|exact H2].
    + intros t Ht. apply B. destruct (decide (t = rTime r)) as [->|N]; [rewrite lookup_insert; right; eauto|rewrite lookup_insert_ne by congruence].
      destruct Ht as [Ht|Ht]; [|auto]. apply elem_of_cons in Ht as [Ht|Ht]; [contradiction|auto].
    + intros k' r' [|e es1] E.
      * injection E as -> ->. subst. cbn in *. destruct (B (rTime r')) as [x Hx]. { right. rewrite lookup_insert. eauto. }
        destruct (A _ _ Hx) as [Hl|(r1 & H1 & _)]; [rewrite lookup_insert in Hl; congruence|inversion H1].
      * injection E as _ E. eapply D, E.
Qed.
Lemma sorted_rev l : Sorted Z.le l -> Sorted (fun a b => b <= a) (rev l).
Proof.
  intros S. apply Sorted_StronglySorted in S; [|intros a b c; lia]. apply StronglySorted_Sorted. induction S as [|a l S IH F]; cbn; [constructor|].
  clear S. assert (forall x, x ∈ rev l -> a <= x) as Hx. { intros x Hx. rewrite Forall_forall in F. apply F. apply elem_of_list_In in Hx. apply in_rev in Hx. apply elem_of_list_In, Hx. }
  revert IH Hx. generalize (rev l). intros q. induction 1 as [|b q S IH Fb]; intros Hx; cbn; [repeat constructor|]. constructor.
  - apply IH. intros x Hq. apply Hx. right. exact Hq.
  - rewrite Forall_app. split; [exact Fb|]. constructor; [|constructor]. apply Hx. left.
Qed.
Lemma list_lines_some es : exists ls, list_lines (map some_snd es) = Ret ls /\ lists es ls /\
  (forall k r es1, es = es1 ++ [(k, r)] -> (rTime r, k) ∈ ls) /\ exists f, ls = map (fun t => (t, f t)) ls.*1.
Proof.
  unfold list_lines. destruct (list_scan_some es [] ∅) as (f & -> & A & B & D). cbn.
  set (ts := rev (merge_sort Z.le (times es))). set (g := fun t => default [] (f !! t)).
  assert (ts ≡ₚ times es) as Pt. { unfold ts. rewrite <- Permutation_rev. apply merge_sort_Permutation. }
  assert ((map (fun t => (t, g t)) ts).*1 = ts) as E1. { rewrite <- list_fmap_compose. apply list_fmap_id. }
  assert (forall t, t ∈ ts -> f !! t = Some (g t)) as Hg. { intros t Ht. destruct (B t) as [k Hk]; [left; rewrite <- Pt; exact Ht|]. unfold g. rewrite Hk. reflexivity. }
  exists (map (fun t => (t, g t)) ts). split; [reflexivity|]. split; [|split].
  - unfold lists. rewrite E1. split_and!.
    + apply sorted_rev. apply Sorted_merge_sort. intros a b. lia.
    + exact Pt.
    + intros t k Hk. apply elem_of_list_fmap in Hk as (t' & [= -> ->] & Ht). destruct (A t' (g t') (Hg _ Ht)) as [Hl|Hr]; [rewrite lookup_empty in Hl; discriminate|exact Hr].
    + intros t k k' Hk Hk'. apply elem_of_list_fmap in Hk as (? & [= -> ->] & _). apply elem_of_list_fmap in Hk' as (? & [= -> ->] & _). reflexivity.
  - intros k r es1 E. apply elem_of_list_fmap. exists (rTime r). assert (rTime r ∈ ts) as Ht. { rewrite Pt, E. unfold times. rewrite map_app. apply elem_of_app. right. left. }
    split; [|exact Ht]. pose proof (Hg _ Ht) as X. rewrite (D k r es1 E) in X. congruence.
  - exists g. rewrite E1. reflexivity.
Qed.
Lemma entries_order s order : order ≡ₚ map_to_list (recs s) -> (forall k, slot s k <> Some None) -> exists es, order = map some_snd es /\ entries s es.
Proof.
  intros Po N. assert (forall k o, (k, o) ∈ order <-> slot s k = Some o) as Ho. { intros k o. rewrite Po, elem_of_map_to_list, slot_recs. reflexivity. }
  assert (NoDup order.*1) as Nd. { rewrite Po. apply NoDup_fst_map_to_list. } clear Po.
  assert (exists es, order = map some_snd es) as [es ->].
  { assert (forall k, (k, None) ∉ order) as Hn by (intros k H; apply Ho in H; eapply N, H). clear Ho Nd N. induction order as [|[k [r|]] order IH].
    - exists []. reflexivity.
    - destruct IH as [es ->]; [intros k' H'; apply (Hn k'); right; exact H'|]. exists ((k, r) :: es). reflexivity.
    - exfalso. apply (Hn k). left. }
  exists es. split; [reflexivity|]. split; [rewrite <- list_fmap_compose in Nd; exact Nd|]. intros k o. rewrite <- Ho, elem_of_list_fmap. split.
  - intros ([k' r] & [= -> ->] & H). eauto.
  - intros (r & -> & H). exists (k, r). auto.
Qed.
Lemma list_lines_nil order k : (k, None) ∈ order -> list_lines order = Panic.
Proof.
  intros H. unfold list_lines. enough (forall ts f, list_scan order ts f = Panic) as -> by reflexivity.
  induction order as [|[k' [r|]] order IH]; intros ts f; [inversion H| |reflexivity]. cbn. apply IH. apply elem_of_cons in H as [[=]|H]; exact H.
Qed.
Lemma journal_list m path c w w' : permutes (jPerm c) -> plain_path path -> good_clock w -> journal_run m JList path c w = Done tt w' ->
  exists pass s es ls, head (wPw w) = Some (Some pass) /\ opens (wFs w) path m pass s /\ entries s es /\ lists es ls /\
    wOut w' = wOut w ++ listing (jFmt c) ls /\ wFs w' = wFs w.
Proof.
  intros Pm P K H. assert (wFs w' = wFs w) as Ef by (eapply journal_read_only; [left; reflexivity|left; eauto]).
  apply journal_done in H as (_ & pass & s & w1 & u & s1 & w2 & Hp & O & Ep & E2 & E3 & E5 & B & _ & S2); [|assumption..]. cbn in B.
  unfold list_entries in B. apply then_done in B as (ls & w3 & B & [= <- <- <-]). apply lift_done in B as [B ->]. specialize (S2 eq_refl). subst w'.
  destruct (entries_order s (jPerm c (map_to_list (recs s)))) as (es & Eo & En).
  { apply Pm. }
  { intros k Hk. rewrite slot_recs in Hk. assert ((k, None) ∈ jPerm c (map_to_list (recs s))) as X by (rewrite (Pm _); apply elem_of_map_to_list, Hk).
    rewrite (list_lines_nil _ _ X) in B. discriminate. }
  rewrite Eo in B. destruct (list_lines_some es) as (ls' & B' & Hl & _). rewrite B in B'. injection B' as <-. exists pass, s, es, ls. split_and!; auto; try (apply En); try (apply Hl).
  cbn. rewrite E5. reflexivity.
Qed.
(** The listing is complete when all times differ, and only then. *)
Lemma lists_complete es ls : NoDup es.*1 -> lists es ls -> ((forall k r, (k, r) ∈ es -> (rTime r, k) ∈ ls) <-> NoDup (map (fun e => rTime (snd e)) es)).
Proof.
  intros Nd (_ & Pt & A & B). split.
  - intros Hc. rewrite <- Pt. assert (es.*1 ≡ₚ ls.*2) as Pl.
    { apply submseteq_Permutation_length_le.
      - rewrite !fmap_length. rewrite <- (fmap_length fst ls), Pt, map_length. lia.
      - apply NoDup_submseteq; [exact Nd|]. intros k Hk. apply elem_of_list_fmap in Hk as ([k' r] & -> & Hk). apply elem_of_list_fmap. exists (rTime r, k'). auto. }
    assert (NoDup ls.*2) as N2 by (rewrite <- Pl; exact Nd). clear -N2 B. induction ls as [|[t k] ls IH]; cbn in *; [constructor|]. apply NoDup_cons in N2 as [N2 N3].
    constructor; [|apply IH; [intros t' k1 k2 H1 H2; eapply B; right; eauto|exact N3]]. intros Ht. apply N2. apply elem_of_list_fmap in Ht as ([t' k'] & -> & Ht).
    apply elem_of_list_fmap. exists (t', k'). split; [|exact Ht]. eapply B; [left|right; exact Ht].
  - intros Nt k r Hk. assert (rTime r ∈ ls.*1) as Ht. { rewrite Pt. apply elem_of_list_fmap. exists (k, r). auto. }
    apply elem_of_list_fmap in Ht as ([t k'] & E & Ht). cbn in E. subst t. destruct (A _ _ Ht) as (r' & H1 & H2).
    enough ((k, r) = (k', r')) as [= -> ->] by exact Ht. clear -Nt Hk H1 H2. induction es as [|e es IH]; [inversion Hk|]. cbn in Nt. apply NoDup_cons in Nt as [N1 N2].
    apply elem_of_cons in Hk as [<-|Hk]; apply elem_of_cons in H1 as [<-|H1]; auto.
    + exfalso. apply N1. cbn. rewrite <- H2. apply elem_of_list_fmap. exists (k', r'). auto.
    + exfalso. apply N1. cbn. rewrite H2. apply elem_of_list_fmap. exists (k, r). auto.
Qed.
(** Which title is printed depends on the order of iteration alone: every entry's
    can be. *)
Lemma lists_any s es k r : entries s es -> (k, r) ∈ es -> exists order ls, order ≡ₚ map_to_list (recs s) /\ list_lines order = Ret ls /\ lists es ls /\ (rTime r, k) ∈ ls.
Proof.
  intros [Nd En] Hk. apply elem_of_list_split in Hk as (l1 & l2 & E). assert (es ≡ₚ (l1 ++ l2) ++ [(k, r)]) as Pe.
  { rewrite E. rewrite <- app_assoc. rewrite (Permutation_app_comm l2 [_]). reflexivity. }
  destruct (list_lines_some ((l1 ++ l2) ++ [(k, r)])) as (ls & El & (S1 & S2 & S3 & S4) & Hl & _). exists (map some_snd ((l1 ++ l2) ++ [(k, r)])), ls. split_and!; auto.
  - apply NoDup_Permutation.
    + apply (NoDup_fmap_1 fst). rewrite <- list_fmap_compose. assert (es.*1 ≡ₚ ((l1 ++ l2) ++ [(k, r)]).*1) as Pf by (apply fmap_Permutation, Pe). rewrite Pf in Nd. exact Nd.
    + apply NoDup_map_to_list.
    + intros [k' o]. rewrite elem_of_map_to_list, <- slot_recs, En, elem_of_list_fmap. setoid_rewrite <- Pe. split.
      * intros ([k2 r2] & [= -> ->] & H). eauto.
      * intros (r2 & -> & H). exists (k', r2). auto.
  - split_and!; auto.
    + rewrite S2. symmetry. apply (fmap_Permutation (fun e => rTime (snd e))), Pe.
    + intros t k' H. destruct (S3 t k' H) as (r' & H1 & H2). exists r'. split; [rewrite Pe; exact H1|exact H2].
  - eapply Hl. reflexivity.
Qed.
(** A record that is null in the file: a panic. *)
Lemma journal_list_null m path c w pass ps s k : permutes (jPerm c) -> plain_path path -> wPw w = Some pass :: ps -> opens (wFs w) path m pass s -> slot s k = Some None ->
  exists w', journal_run m JList path c w = Crash w' /\ wFs w' = wFs w.
Proof.
  intros Pm P Ew O Hk. destruct O as (d & Ef & U). unfold journal_run. rewrite decide_False by (cbn; lia). unfold with_store, load_store, w_pass. rewrite Ew. unfold w_exists, exists_. cbn [wFs]. rewrite Ef.
  rewrite bool_decide_eq_false_2 by apply P. cbn [negb andb fst]. rewrite w_read_plain by exact P. cbn [wFs]. rewrite Ef. cbn [lift then_]. rewrite U. cbn [lift then_ jrun].
  unfold list_entries. rewrite (list_lines_nil _ k). { cbn. eauto. } rewrite (Pm _). apply elem_of_map_to_list. rewrite <- slot_recs. exact Hk.
Qed.
End WithCrypto.

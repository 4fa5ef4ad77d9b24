(** Sessions of secretscli: what is saved, and how reader, loop and timer run. *)
From Verif Require Export CmdCliState.
Local Open Scope Z_scope.

Lemma set_in_id w : set_in w (wIn w) = w. Proof. destruct w. reflexivity. Qed.
Lemma set_in_twice w i j : set_in (set_in w i) j = set_in w j. Proof. reflexivity. Qed.
Lemma blanks_snoc i i1 i2 : blanks i i1 -> read_line i1 = (Some [], i2) -> blanks i i2.
Proof. induction 1 as [i|i j k E B IH]; intros E2; [eapply bk_more; [exact E2|apply bk_nil]|eapply bk_more; eauto]. Qed.
Lemma but_ahead_refl w : but_ahead w w.
Proof. exists (wIn w). split; [symmetry; apply set_in_id|left; constructor]. Qed.

Section WithCrypto.
Context `{C : Crypto} `{TT : Tty} {L : CryptoLaws}.

(** *** Saving does not look at the input *)
Lemma write_session_in path m v w i ok v' w' : write_session path m v w = CRet ok v' w' -> write_session path m v (set_in w i) = CRet ok v' (set_in w' i).
Proof.
  unfold write_session. destruct (negb (vDirty v)); [intros [= <- <- <-]; reflexivity|].
  cbn [set_in wRng]. destruct (marshal_store (vStore v) m (wRng w)) as [[[[d|] s'] g]|]; [|intros [= <- <- <-]; reflexivity|discriminate].
  unfold w_write, w_raw_write, set_rng, set_in. cbn. destruct (decide _); [intros [= <- <- <-]; reflexivity|].
  destruct (decide _); [intros [= <- <- <-]; reflexivity|].
  destruct (match wFate w with [] => _ | _ => _ end) as [fa rest]. destruct (write_file _ _ _ _) as [b f]. intros [= <- <- <-]. reflexivity.
Qed.
Lemma write_session_wIn path m v w ok v' w' : write_session path m v w = CRet ok v' w' -> wIn w' = wIn w.
Proof.
  intros E. pose proof (write_session_in path m v w (wIn w) _ _ _ E) as E2. rewrite set_in_id, E in E2. injection E2 as E2. rewrite E2. reflexivity.
Qed.
Lemma shutdown_in path m v w i ok v' w' : shutdown path m v w = CRet ok v' w' -> shutdown path m v (set_in w i) = CRet ok v' (set_in w' i).
Proof.
  unfold shutdown. destruct (write_session path m v w) as [ok1 v1 w1| |] eqn:E; [|discriminate..]. intros [= <- <- <-].
  erewrite write_session_in by exact E. reflexivity.
Qed.
Lemma shutdown_wIn path m v w ok v' w' : shutdown path m v w = CRet ok v' w' -> wIn w' = wIn w.
Proof.
  unfold shutdown. destruct (write_session path m v w) as [ok1 v1 w1| |] eqn:E; [|discriminate..]. intros [= <- <- <-]. eapply write_session_wIn, E.
Qed.
Lemma shutdown_ahead path m v w w0 ok v' w' : but_ahead w0 w -> shutdown path m v w = CRet ok v' w' ->
  exists w1, shutdown path m v w0 = CRet ok v' w1 /\ but_ahead w1 w'.
Proof.
  intros (i & -> & P) E. destruct (shutdown_total path m v w0) as (ok1 & v1 & w1 & E1).
  pose proof (shutdown_in _ _ _ _ i _ _ _ E1) as E2. rewrite E in E2. injection E2 as -> -> ->. exists w1. split; [exact E1|].
  exists i. split; [reflexivity|]. rewrite (shutdown_wIn _ _ _ _ _ _ _ E1). exact P.
Qed.

(** *** The threads follow the sequence *)
Definition ahead_of (path : bytes) (m : Z) (v0 : sess) (w0 : world) (c : cli) : Prop :=
  match tLoop c with
  | LSelect => tPrClosed c = false /\
      match tRead c with
      | RRead => runs path m v0 w0 (tDone c) (tSess c) (tWorld c)
      | RSend l => l <> [] /\ exists w1 i, runs path m v0 w0 (tDone c) (tSess c) w1 /\ read_line (wIn w1) = (Some l, i) /\ tWorld c = set_in w1 i
      | RDone => exists w1 i, runs path m v0 w0 (tDone c) (tSess c) w1 /\ read_line (wIn w1) = (None, i) /\ tWorld c = set_in w1 i
      | RWait => False
      end
  | LRun l => tRead c = RWait /\ tPrClosed c = false /\ l <> [] /\ l <> bs "quit" /\
      exists w1 i, runs path m v0 w0 (tDone c) (tSess c) w1 /\ read_line (wIn w1) = (Some l, i) /\ tWorld c = set_in w1 i
  | LReply => tRead c = RWait /\ tPrClosed c = false /\ runs path m v0 w0 (tDone c) (tSess c) (tWorld c)
  | LReturned => exists w1 i, session_ends path m v0 w0 (tDone c) (tSess c) w1 /\ tWorld c = set_in w1 i /\
      (tRead c = RRead -> blanks (wIn w1) i) /\ peeks (wIn w1) i
  | LExited =>
      (exists v1 w1 w2 ok, session_ends path m v0 w0 (tDone c) v1 w1 /\ shutdown path m v1 w1 = CRet ok (tSess c) w2 /\ but_ahead w2 (tWorld c)) \/
      (exists ls l v1 w1 i, tDone c = ls ++ [l] /\ runs path m v0 w0 ls v1 w1 /\ read_line (wIn w1) = (Some l, i) /\
        command path m l v1 (set_in w1 i) = CExit (tSess c) (tWorld c))
  end.
Lemma ahead_start path m v w : ahead_of path m v w (cli_start v w).
Proof. split; [reflexivity|]. cbn. constructor. Qed.
Lemma returned_of_select path m v0 w0 r ic pc v w d : ahead_of path m v0 w0 (Cli r LSelect ic pc v w d) ->
  forall r' ic' pc', (r' = RRead -> r = RRead) -> ahead_of path m v0 w0 (Cli r' LReturned ic' pc' v w d).
Proof.
  intros [_ H] r' ic' pc' Rr. cbn in H |- *. destruct r as [|l| |].
  - exists w, (wIn w). split; [left; exact H|]. split; [symmetry; apply set_in_id|]. split; [intros _; constructor|left; constructor].
  - destruct H as (N & w1 & i & R & E & ->). exists w1, i. split; [left; exact R|]. split; [reflexivity|]. split; [intros Z; specialize (Rr Z); discriminate|].
    right. exists (wIn w1), (Some l). split; [constructor|exact E].
  - tauto.
  - destruct H as (w1 & i & R & E & ->). exists w1, i. split; [left; exact R|]. split; [reflexivity|]. split; [intros Z; specialize (Rr Z); discriminate|].
    right. exists (wIn w1), None. split; [constructor|exact E].
Qed.
Lemma run_snoc path m v0 w0 d v w1 l i ok v' w' : runs path m v0 w0 d v w1 -> read_line (wIn w1) = (Some l, i) -> l <> [] -> l <> bs "quit" ->
  command path m l v (set_in w1 i) = CRet ok v' w' -> runs path m v0 w0 (d ++ [l]) v' w'.
Proof. intros R E N Q Cm. eapply runs_app; [exact R|]. eapply rs_line; eauto. constructor. Qed.
Lemma blank_snoc path m v0 w0 d v w1 i : runs path m v0 w0 d v w1 -> read_line (wIn w1) = (Some [], i) -> runs path m v0 w0 d v (set_in w1 i).
Proof. intros R E. rewrite <- (app_nil_r d). eapply runs_app; [exact R|]. eapply rs_blank; [exact E|constructor]. Qed.
Lemma ahead_step path m v0 w0 c c' : ahead_of path m v0 w0 c -> cli_step path m c c' -> ahead_of path m v0 w0 c'.
Proof.
  intros A S. destruct S as [q ic pc v w d i Q E|q ic pc v w d i l Q E N|q ic pc v w d i Q E|q ic v w d Q|ic pc v w d|l ic pc v w d N|ic pc v w d|r pc v w d|r ic v w d|r l ic pc v w d ok v' w' E|r l ic pc v w d v' w' E|r l ic pc v w d v' w' E|r ic pc v w d ok v' w' E].
  - destruct q; unfold ahead_of in *; cbn in *; [|naive_solver|naive_solver| |congruence].
    + destruct A as [P R]. split; [exact P|]. apply blank_snoc; assumption.
    + destruct A as (w1 & j & R & -> & B & P). exists w1, i. split; [exact R|]. split; [reflexivity|]. specialize (B eq_refl).
      assert (blanks (wIn w1) i) by (eapply blanks_snoc; eauto). split; [auto|left; auto].
  - destruct q; unfold ahead_of in *; cbn in *; [|naive_solver|naive_solver| |congruence].
    + destruct A as [P R]. split; [exact P|]. split; [exact N|]. exists w, i. auto.
    + destruct A as (w1 & j & R & -> & B & P). exists w1, i. split; [exact R|]. split; [reflexivity|]. specialize (B eq_refl). split; [discriminate|]. right. eauto.
  - destruct q; unfold ahead_of in *; cbn in *; [|naive_solver|naive_solver| |congruence].
    + destruct A as [P R]. split; [exact P|]. exists w, i. auto.
    + destruct A as (w1 & j & R & -> & B & P). exists w1, i. split; [exact R|]. split; [reflexivity|]. specialize (B eq_refl). split; [discriminate|]. right. eauto.
  - destruct q; unfold ahead_of in *; cbn in *; [tauto|destruct A as (_ & Z & _); discriminate|destruct A as (_ & Z & _); discriminate| |congruence].
    destruct A as (w1 & j & R & -> & B & P). exists w1, j. split; [exact R|]. split; [reflexivity|]. split; [discriminate|exact P].
  - eapply returned_of_select; [exact A|discriminate].
  - destruct A as [P (N' & w1 & i & R & E & W)]. cbn in *. split_and!; auto. exists w1, i. auto.
  - destruct A as (_ & P & R). cbn in *. split; [exact P|exact R].
  - eapply returned_of_select; [exact A|auto].
  - eapply returned_of_select; [exact A|auto].
  - destruct A as (Rw & P & N & Q & w1 & i & R & El & W). cbn in *. subst w. split_and!; auto. eapply run_snoc; eauto.
  - destruct A as (Rw & P & N & Q & w1 & i & R & El & W). cbn in *. subst w r. exists w', (wIn w'). split.
    + right. exists d, l, v, w1, i. auto.
    + split; [symmetry; apply set_in_id|]. split; [discriminate|]. left. constructor.
  - destruct A as (Rw & P & N & Q & w1 & i & R & El & W). cbn in *. subst w. right. exists d, l, v, w1, i. auto.
  - destruct A as (w1 & i & R & W & B & P). cbn in *. left. destruct (shutdown_ahead path m v w w1 ok v' w') as (w2 & E2 & Bi); [exists i; auto|exact E|].
    exists v, w1, w2, ok. auto.
Qed.
Lemma ahead_reach path m v0 w0 c : reaches path m (cli_start v0 w0) c -> ahead_of path m v0 w0 c.
Proof. induction 1 as [|c c' R IH S]; [apply ahead_start|eapply ahead_step; eauto]. Qed.

(** C58: while the session is open. *)
Lemma seq_open path m v0 w0 c : reaches path m (cli_start v0 w0) c -> tLoop c <> LExited -> tLoop c <> LReturned ->
  exists w1, runs path m v0 w0 (tDone c) (tSess c) w1 /\ but_ahead w1 (tWorld c).
Proof.
  intros R N1 N2. apply ahead_reach in R. destruct c as [r q ic pc v w d]. unfold ahead_of in R. cbn in *.
  assert (forall w1 i l, runs path m v0 w0 d v w1 -> read_line (wIn w1) = (l, i) -> w = set_in w1 i -> exists w1, runs path m v0 w0 d v w1 /\ but_ahead w1 w) as A.
  { intros w1 i l Rn E ->. exists w1. split; [exact Rn|]. exists i. split; [reflexivity|]. right. exists (wIn w1), l. split; [constructor|exact E]. }
  destruct q; try congruence.
  - destruct R as [_ R]. destruct r; [exists w; split; [exact R|apply but_ahead_refl]| |tauto|]; naive_solver.
  - naive_solver.
  - destruct R as (_ & _ & R). exists w. split; [exact R|apply but_ahead_refl].
Qed.
(** C58: when it is over. *)
Lemma seq_closed path m v0 w0 c : reaches path m (cli_start v0 w0) c -> tLoop c = LExited ->
  (exists v1 w1 w2 ok, session_ends path m v0 w0 (tDone c) v1 w1 /\ shutdown path m v1 w1 = CRet ok (tSess c) w2 /\ but_ahead w2 (tWorld c)) \/
  (exists ls l v1 w1 i, tDone c = ls ++ [l] /\ runs path m v0 w0 ls v1 w1 /\ read_line (wIn w1) = (Some l, i) /\
    command path m l v1 (set_in w1 i) = CExit (tSess c) (tWorld c)).
Proof. intros R E. apply ahead_reach in R. unfold ahead_of in R. rewrite E in R. exact R. Qed.
Lemma exclusive path m v0 w0 c : reaches path m (cli_start v0 w0) c -> (exists l, tLoop c = LRun l) \/ tLoop c = LReply -> tRead c = RWait.
Proof. intros R E. apply ahead_reach in R. unfold ahead_of in R. destruct E as [[l E]|E]; rewrite E in R; naive_solver. Qed.
Lemma no_more path m c c' : cli_step path m c c' -> tLoop c = LReturned -> tDone c' = tDone c /\ (tLoop c' = LReturned \/ tLoop c' = LExited).
Proof. intros S. destruct S; cbn; intros E; try discriminate; auto. Qed.
Lemma exited_stuck path m c c' : cli_step path m c c' -> tLoop c <> LExited.
Proof. intros S. destruct S; cbn; congruence. Qed.
Lemma progress path m v0 w0 c : reaches path m (cli_start v0 w0) c -> tLoop c <> LExited -> exists c', cli_step path m c c'.
Proof.
  intros R N. apply ahead_reach in R. destruct c as [r q ic pc v w d]. unfold ahead_of in R. cbn in *. destruct q as [|l| | |]; [| | | |congruence].
  - destruct R as [-> _]. eexists. apply st_timeout.
  - destruct (command path m l v w) as [ok v' w'|v' w'|v' w'] eqn:E; eexists; [eapply st_run|eapply st_panic|eapply st_exit]; exact E.
  - destruct R as (-> & _). eexists. apply st_reply.
  - destruct (shutdown_total path m v w) as (ok & v' & w' & E). eexists. eapply st_shutdown, E.
Qed.
(** Only quit with arguments or surrounding space exits inside a command. *)
Lemma exit_quit path m l v w v' w' : command path m l v w = CExit v' w' -> verb l (bs "quit") /\ exists ok, shutdown path m v w = CRet ok v' w'.
Proof.
  unfold command. destruct (str_fields l) as [|cmd args] eqn:F; [discriminate|].
  assert (line_words l (cmd :: args)) as W by (apply fields_iff, F).
  destruct (decide (cmd = bs "clear")) as [->|]; [discriminate|]. destruct (decide (cmd = bs "help")) as [->|]; [destruct (help_text args); discriminate|].
  destruct (decide (cmd = bs "list")) as [->|]; [discriminate|].
  destruct (decide (cmd = bs "quit")) as [->|].
  { destruct (shutdown_total path m v w) as (ok & v1 & w1 & ->). intros [= <- <-]. split; [exists args; exact W|eauto]. }
  destruct (decide (cmd = bs "passwd")) as [->|].
  { unfold cli_passwd. destruct (w_pass w) as [[p|] w1]; [|discriminate]. destruct (w_pass w1) as [[q|] w2]; [|discriminate]. destruct (decide _); discriminate. }
  destruct (decide (cmd = bs "rmeta")) as [->|].
  { assert (forall s args v w, read_metas s args v w <> CExit v' w') as Rm.
    { intros s a. induction a as [|x a IH]; intros v1 w1; cbn [read_metas]; [discriminate|]. destruct (recs s !! x) as [[r|]|]; [apply IH|discriminate|apply IH]. }
    unfold read_meta. destruct (decide _); [discriminate|]. intros E. apply Rm in E. tauto. }
  assert (forall hx many s args v w, cli_show hx many s args v w <> CExit v' w') as Sh.
  { intros hx many s a. induction a as [|x a IH]; intros v1 w1; cbn [cli_show]; [discriminate|]. destruct (recs s !! x) as [[r|]|]; [apply IH|discriminate|apply IH]. }
  destruct (decide (cmd = bs "show")) as [->|].
  { unfold show_cmd. destruct (decide _); [discriminate|]. intros E. apply Sh in E. tauto. }
  destruct (decide (cmd = bs "showhex")) as [->|].
  { unfold show_cmd. destruct (decide _); [discriminate|]. intros E. apply Sh in E. tauto. }
  assert (forall label v w, store_single label v w <> CExit v' w') as Ss.
  { intros label v1 w1. assert (forall w2 r, match w_pass w2 with
    | (None, w) => CRet false v1 w
    | (Some p, w) =>
        if decide (length p = 0%nat) then CRet false v1 w else
        match r with
        | None => CPanic v1 w
        | Some r =>
            let '(now, w) := w_now w in
            let s := SStore (sVersion (vStore v1)) now (sRecs (vStore v1)) (sPass (vStore v1)) in
            match set_rec s label (Some (SRec (rLabel r) now (Some p) (rMeta r))) with
            | Ret s => CRet true (Sess s true) w
            | Panic => CPanic (set_store v1 s) w
            end
        end
    end <> CExit v' w') as Pt.
    { intros w2 r. destruct (w_pass w2) as [[p|] w3]; [|discriminate]. destruct (decide _); [discriminate|]. destruct r; [|discriminate].
      destruct (w_now w3). cbv zeta. destruct (set_rec _ _ _); discriminate. }
    unfold store_single. destruct (recs (vStore v1) !! label) as [r|]; [|apply (Pt w1 (Some _))].
    destruct (w_line w1) as [[a|] w2]; [|discriminate]. destruct (_ || _); [apply Pt|discriminate]. }
  assert (forall args first v w, store_labels path m first args v w <> CExit v' w') as Sl.
  { intros a. induction a as [|x a IH]; intros first v1 w1; cbn [store_labels]; [discriminate|]. destruct (store_single x v1 w1) as [[]| |] eqn:E; [apply IH| |discriminate|rewrite <- E; apply Ss].
    destruct first; [discriminate|]. destruct (write_session_total path m v0 w0) as (ok & v2 & w2 & ->). discriminate. }
  destruct (decide (cmd = bs "store")) as [->|].
  { unfold store_cmd. destruct (decide _); [discriminate|]. intros E. apply Sl in E. tauto. }
  destruct (decide (cmd = bs "wmeta")) as [->|].
  { unfold write_meta. destruct args as [|a [|]]; try discriminate. destruct (recs (vStore v) !! a) as [[r|]|]; try discriminate.
    destruct (wmeta_loop _ _ w) as [[md b] w1]. destruct b; [destruct (w_now w1)|]; destruct (set_rec _ _ _); discriminate. }
  destruct (decide (cmd = bs "write")) as [->|]; [|discriminate].
  unfold write_cmd. destruct (decide _); [|discriminate]. destruct (write_session_total path m v w) as (ok & v2 & w2 & ->). discriminate.
Qed.

(** *** C57: passwd alone *)
Lemma shutdown_clean path m v w ok v' w' : shutdown path m v w = CRet ok v' w' -> vDirty v = false -> w' = w /\ vDirty v' = false.
Proof. unfold shutdown. intros E D. rewrite write_clean in E by exact D. injection E as <- <- <-. auto. Qed.
Lemma quiet_session path m v0 w0 c : vDirty v0 = false -> reaches path m (cli_start v0 w0) c ->
  Forall (fun l => quiet l \/ verb l (bs "quit")) (tDone c) -> wFs (tWorld c) = wFs w0 /\ vDirty (tSess c) = false.
Proof.
  intros D R F. apply ahead_reach in R.
  assert (forall ls, Forall (fun l => quiet l \/ verb l (bs "quit")) ls -> forall v w v' w', runs path m v w ls v' w' -> Forall quiet ls) as Qr.
  { intros ls F1 v w v' w' Rn. induction Rn as [|v w i ls v' w' E Rn IH|v w i l ok v1 w1 ls v' w' E N Q Cm Rn IH]; [constructor|auto|].
    apply Forall_cons in F1 as [F1 F2]. constructor; [|auto]. destruct F1 as [F1|F1]; [exact F1|]. exfalso. destruct F1 as [args F1]. apply fields_iff in F1.
    unfold command in Cm. rewrite F1 in Cm. repeat (rewrite decide_False in Cm by discriminate). rewrite decide_True in Cm by reflexivity.
    destruct (shutdown_total path m v (set_in w i)) as (o & v2 & w2 & E2). rewrite E2 in Cm. discriminate. }
  assert (forall ls v w, Forall (fun l => quiet l \/ verb l (bs "quit")) ls -> runs path m v0 w0 ls v w -> wFs w = wFs w0 /\ vDirty v = false) as Rr.
  { intros ls v w F1 Rn. pose proof (Qr _ F1 _ _ _ _ Rn) as Qs. apply runs_state in Rn as [_ _ _ _ Aq _]. specialize (Aq Qs) as (E1 & _ & E2). split; [exact E1|congruence]. }
  assert (forall v w i l v' w', quiet l \/ verb l (bs "quit") -> vDirty v = false -> cstate (command path m l v (set_in w i)) = (v', w') -> wFs w' = wFs w /\ vDirty v' = false) as Cc.
  { intros v w i l v' w' [Q|[args Q]] Dv Cm.
    - apply command_state in Cm as [_ _ _ _ Aq _]. specialize (Aq Q) as (E1 & _ & E2). split; [exact E1|congruence].
    - apply fields_iff in Q. unfold command in Cm. rewrite Q in Cm. repeat (rewrite decide_False in Cm by discriminate). rewrite decide_True in Cm by reflexivity.
      destruct (shutdown_total path m v (set_in w i)) as (o & v2 & w2 & E2). rewrite E2 in Cm. injection Cm as <- <-. apply shutdown_clean in E2 as [-> E2]; auto. }
  assert (forall ls v w, Forall (fun l => quiet l \/ verb l (bs "quit")) ls -> session_ends path m v0 w0 ls v w -> wFs w = wFs w0 /\ vDirty v = false) as Re.
  { intros ls v w F1 [Rn|(ls0 & l & v1 & w1 & i & -> & Rn & E & N & P)]; [eauto|]. apply Forall_app in F1 as [F1 F2]. apply Forall_cons in F2 as [F2 _].
    apply Rr in Rn as [E1 E2]; [|exact F1]. destruct (Cc v1 w1 i l v w) as [E3 E4]; auto; [rewrite P; reflexivity|]. split; [congruence|exact E4]. }
  destruct c as [r q ic pc v w d]. unfold ahead_of in R. cbn in *.
  destruct q as [|l| | |].
  - destruct R as [_ R]. destruct r.
    + eauto.
    + destruct R as (_ & w1 & i & Rn & _ & ->). apply Rr in Rn; [exact Rn|exact F].
    + tauto.
    + destruct R as (w1 & i & Rn & _ & ->). apply Rr in Rn; [exact Rn|exact F].
  - destruct R as (_ & _ & _ & _ & w1 & i & Rn & _ & ->). apply Rr in Rn; [exact Rn|exact F].
  - destruct R as (_ & _ & Rn). eauto.
  - destruct R as (w1 & i & Rn & -> & _). apply Re in Rn; [exact Rn|exact F].
  - destruct R as [(v1 & w1 & w2 & ok & Rn & Sh & (i & -> & _))|(ls & l & v1 & w1 & i & -> & Rn & E & Cm)].
    + apply Re in Rn as [E1 E2]; [|exact F]. apply shutdown_clean in Sh as [-> Sh]; auto.
    + apply Forall_app in F as [F1 F2]. apply Forall_cons in F2 as [F2 _]. apply Rr in Rn as [E1 E2]; [|exact F1].
      destruct (Cc v1 w1 i l v w) as [E3 E4]; auto; [rewrite Cm; reflexivity|]. split; [congruence|exact E4].
Qed.

Lemma cli_open_inv path m w v w1 : cli_open path m w = Some (v, w1) ->
  exists pass, wPw w = Some pass :: wPw w1 /\ opens (wFs w) path m pass (vStore v) /\ vDirty v = false /\ keeps w w1 /\
    good_store (vStore v) /\ sPass (vStore v) = Some pass.
Proof.
  unfold cli_open. destruct (w_pass w) as [[pass|] w2] eqn:E; [|discriminate]. unfold w_raw_read. destruct (decide _); [discriminate|].
  pose proof (w_pass_keeps _ _ _ E) as K. rewrite (keeps_fs _ _ K). destruct (read_file (wFs w) path) as [d|] eqn:Ef; [|discriminate].
  destruct (unmarshal_store d pass m) as [[s|]|] eqn:U; [|discriminate..]. intros [= <- <-]. exists pass. apply w_pass_eq in E as (E & _).
  destruct (unmarshal_good _ _ _ _ U). split_and!; auto. exists d. auto.
Qed.
(** What a command line is. *)
Lemma write_line path m l v w : line_words l [bs "write"] -> command path m l v w = write_session path m v w.
Proof. intros W. apply fields_iff in W. unfold command. rewrite W. reflexivity. Qed.
Lemma store_line path m l label v w : line_words l [bs "store"; label] -> forall ok v' w', command path m l v w = CRet ok v' w' -> store_single label v w = CRet ok v' w'.
Proof.
  intros W ok v' w'. apply fields_iff in W. unfold command. rewrite W. cbn [bs]. change (store_cmd path m [label] v w = CRet ok v' w' -> store_single label v w = CRet ok v' w').
  unfold store_cmd. rewrite decide_False by discriminate. cbn [store_labels]. destruct (store_single label v w) as [[]| |]; intros [= <- <- <-]; reflexivity.
Qed.

(** *** C57 *)
Lemma passwd_lost path m w0 v w c : cli_open path m w0 = Some (v, w) -> reaches path m (cli_start v w) c ->
  Forall (fun l => quiet l \/ verb l (bs "quit")) (tDone c) ->
  wFs (tWorld c) = wFs w0 /\ exists pass, head (wPw w0) = Some (Some pass) /\ opens (wFs (tWorld c)) path m pass (vStore v).
Proof.
  intros O R F. apply cli_open_inv in O as (pass & Ep & Op & D & K & _). destruct (quiet_session _ _ _ _ _ D R F) as [E _].
  rewrite (keeps_fs _ _ K) in E. split; [exact E|]. exists pass. rewrite Ep, E. auto.
Qed.
Lemma passwd_session path m l args v w p ps : line_words l (bs "passwd" :: args) -> wPw w = Some p :: Some p :: ps ->
  exists w', command path m l v w = CRet true (Sess (change_password (vStore v) p) (vDirty v)) w' /\ wFs w' = wFs w /\ sPass (change_password (vStore v) p) = Some p.
Proof.
  intros W E. apply fields_iff in W. unfold command. rewrite W. change (exists w', cli_passwd v w = CRet true (Sess (change_password (vStore v) p) (vDirty v)) w' /\ wFs w' = wFs w /\ sPass (change_password (vStore v) p) = Some p).
  unfold cli_passwd, w_pass. rewrite E. cbn. rewrite decide_True by reflexivity. eexists. split; [reflexivity|]. split; reflexivity.
Qed.

(** *** C56 *)
Lemma saved_locked path m v w v' w' pass : plain_path path -> vDirty v = true -> sPass (vStore v) = Some pass ->
  write_session path m v w = CRet true v' w' ->
  exists d, wFs w' !! path = Some d /\ forall pass', locks_out d m pass (print (jstore (vStore v))) pass' -> unmarshal_store d pass' m = Ret None.
Proof.
  intros P D Ep. unfold write_session. rewrite D. cbn [negb].
  destruct (marshal_store (vStore v) m (wRng w)) as [[[[d|] s'] g]|] eqn:E; [|discriminate|discriminate].
  destruct (w_write (set_rng w g) path d) as [[] w1] eqn:W; [|discriminate]. intros [= <- <-]. exists d. split.
  - apply w_write_ok in W as W; [|exact P]. rewrite W. apply lookup_insert.
  - intros pass' H. eapply unmarshal_wrong_key; [exact E|]. rewrite Ep. exact H.
Qed.
Lemma shutdown_write path m v w v' w' : shutdown path m v w = CRet true v' w' -> exists v1, write_session path m v w = CRet true v1 w'.
Proof. unfold shutdown. destruct (write_session path m v w) as [ok v1 w1| |]; [|discriminate..]. intros [= -> <- <-]. eauto. Qed.
Lemma hollow_saved path m n (P : bytes -> Prop) v w v' w' : plain_path path -> good_clock w -> go_store (vStore v) -> hollow n P (vStore v) -> vDirty v = true ->
  write_session path m v w = CRet true v' w' ->
  exists s, hollow n P s /\ saved (wFs w') path m s /\
    exists d, wFs w' !! path = Some d /\ forall pass', locks_out d m (zeros n) (print (jstore s)) pass' -> unmarshal_store d pass' m = Ret None.
Proof.
  intros Pp K G H D E. exists (vStore v). split; [exact H|]. split; [eapply write_session_saves; eauto|]. eapply saved_locked; eauto. apply H.
Qed.
Lemma write_destroys path m l v w v1 w1 pass ls v2 w2 v3 w3 :
  plain_path path -> good_clock w -> go_store (vStore v) -> sPass (vStore v) = Some pass -> vDirty v = true ->
  line_words l [bs "write"] -> command path m l v w = CRet true v1 w1 ->
  runs path m v1 w1 ls v2 w2 -> Forall (fun l => ~ verb l (bs "passwd")) ls -> vDirty v2 = true ->
  write_session path m v2 w2 = CRet true v3 w3 \/ shutdown path m v2 w2 = CRet true v3 w3 ->
  saved (wFs w1) path m (vStore v) /\
  exists s, hollow (length pass) (fun k => exists l, l ∈ ls /\ concerns k l) s /\ saved (wFs w3) path m s /\
    exists d, wFs w3 !! path = Some d /\ forall pass', locks_out d m (zeros (length pass)) (print (jstore s)) pass' -> unmarshal_store d pass' m = Ret None.
Proof.
  intros Pp K G Ep D W Cm R F D2 E. rewrite write_line in Cm by exact W. pose proof Cm as (Sv & D1 & Wp)%write_session_saves; auto. split; [exact Sv|].
  apply write_session_state in Cm as (_ & Kc & Z1 & _). specialize (Kc K).
  assert (go_store (vStore v1)) as G1 by (destruct Z1 as [-> | ->]; [exact G|apply go_zero, G]).
  pose proof (wiped_hollow (length pass) (fun _ => False) _ _ _ Wp Ep eq_refl) as H.
  apply runs_state in R as [_ Rc Rg _ _ Rh]. specialize (Rh _ _ F H). specialize (Rc Kc). specialize (Rg Kc G1).
  assert (exists v3', write_session path m v2 w2 = CRet true v3' w3) as [v3' E'] by (destruct E as [E|E]; [eauto|eapply shutdown_write, E]).
  destruct (hollow_saved path m _ _ v2 w2 v3' w3 Pp Rc Rg Rh D2 E') as (s & Hs & Ss & Sl). exists s. split; [|auto]. eapply hollow_weak; [|exact Hs]. cbn. intros k [[]|]; auto.
Qed.
Lemma write_fails_wipes path m l v w v1 w1 pass salt nonce g1 g2 ls v2 w2 v3 w3 :
  plain_path path -> good_clock w -> go_store (vStore v) -> sPass (vStore v) = Some pass -> vDirty v = true -> sound (vStore v) -> m = 0 \/ m = 1 ->
  length salt = 32%nat -> length nonce = 24%nat -> delivers (wRng w) salt g1 -> delivers g1 nonce g2 ->
  line_words l [bs "write"] -> command path m l v w = CRet false v1 w1 ->
  vDirty v1 = true /\ hollow (length pass) (fun _ => False) (vStore v1) /\
  (runs path m v1 w1 ls v2 w2 -> Forall (fun l => ~ verb l (bs "passwd")) ls -> vDirty v2 = true ->
   write_session path m v2 w2 = CRet true v3 w3 \/ shutdown path m v2 w2 = CRet true v3 w3 ->
   exists s, hollow (length pass) (fun k => exists l, l ∈ ls /\ concerns k l) s /\ saved (wFs w3) path m s).
Proof.
  intros Pp K G Ep D So Mo L1 L2 D1 D2 W Cm. rewrite write_line in Cm by exact W. pose proof Cm as (_ & Kc & Z1 & Df & _)%write_session_state. specialize (Kc K).
  specialize (Df D eq_refl). split; [exact Df|].
  assert (vStore v1 = store_zero (vStore v)) as Zs.
  { unfold write_session in Cm. rewrite D in Cm. cbn [negb] in Cm.
    assert (exists key, mode_key m (default [] (sPass (vStore v))) salt key) as [key Mk] by (unfold mode_key; destruct Mo as [-> | ->]; eauto).
    rewrite (marshal_succeeds (vStore v) m (wRng w) salt nonce g1 g2 key So L1 L2 D1 D2 Mk) in Cm.
    destruct (w_write _ _ _) as [ok w4]. injection Cm as -> <- <-. reflexivity. }
  assert (hollow (length pass) (fun _ => False) (vStore v1)) as H by (rewrite Zs; eapply zero_store_hollow; eauto).
  split; [exact H|]. intros R F Dv E.
  assert (go_store (vStore v1)) as G1 by (destruct Z1 as [-> | ->]; [exact G|apply go_zero, G]).
  apply runs_state in R as [_ Rc Rg _ _ Rh]. specialize (Rh _ _ F H). specialize (Rc Kc). specialize (Rg Kc G1).
  assert (exists v3', write_session path m v2 w2 = CRet true v3' w3) as [v3' E'] by (destruct E as [E|E]; [eauto|eapply shutdown_write, E]).
  destruct (hollow_saved path m _ _ v2 w2 v3' w3 Pp Rc Rg Rh Dv E') as (s & Hs & Ss & _). exists s. split; [|auto]. eapply hollow_weak; [|exact Hs]. cbn. intros k [[]|]; auto.
Qed.
Lemma quit_saves path m w0 v w ls v1 w1 v2 w2 : plain_path path -> good_clock w0 -> cli_open path m w0 = Some (v, w) ->
  session_ends path m v w ls v1 w1 -> Forall no_save ls -> shutdown path m v1 w1 = CRet true v2 w2 ->
  (forall k, (forall l, l ∈ ls -> ~ concerns k l) -> slot (vStore v1) k = slot (vStore v) k) /\
  (Forall (fun l => ~ verb l (bs "passwd")) ls -> sPass (vStore v1) = sPass (vStore v)) /\
  wFs w1 = wFs w0 /\ only_changes path (wFs w0) (wFs w2) /\
  (vDirty v1 = true -> saved (wFs w2) path m (vStore v1)) /\
  (vDirty v1 = false -> wFs w2 = wFs w0).
Proof.
  intros Pp K O Se F Sh. apply cli_open_inv in O as (pass & Ep & Op & D & Kw & Gs & Ps).
  apply session_ends_state in Se as [_ Rc Rg Rs _ _]. specialize (Rs F) as (E1 & E2 & E3 & E4).
  pose proof (keeps_clock _ _ Kw K) as K1. specialize (Rc K1). specialize (Rg K1 (good_go _ Gs)). rewrite (keeps_fs _ _ Kw) in E1.
  apply shutdown_write in Sh as [v3 Sh]. split; [exact E2|]. split; [exact E4|]. split; [exact E1|].
  pose proof Sh as (A1 & _ & _ & _ & _ & A6)%write_session_state. rewrite E1 in A1. split; [exact A1|]. split.
  - intros Dt. eapply write_session_saves; eauto.
  - intros Df. apply A6 in Df as [_ ->]. exact E1.
Qed.

Lemma lower_yes b c1 c2 : (forall x, lower x = b -> x = c1 \/ x = c2) -> lower c1 = b -> lower c2 = b -> forall x, lower x = b <-> x = c1 \/ x = c2.
Proof. intros H E1 E2 x. split; [apply H|]. intros [-> | ->]; assumption. Qed.
Lemma affirmative_iff a : bool_decide (to_lower a = bs "y") || bool_decide (to_lower a = bs "yes") = true <-> affirmative a.
Proof.
  assert (forall x, lower x = x79 <-> x = x79 \/ x = x59) as Hy by (apply lower_yes; [intros x; destruct x; vm_compute; intros; auto; discriminate|reflexivity|reflexivity]).
  assert (forall x, lower x = x65 <-> x = x65 \/ x = x45) as He by (apply lower_yes; [intros x; destruct x; vm_compute; intros; auto; discriminate|reflexivity|reflexivity]).
  assert (forall x, lower x = x73 <-> x = x73 \/ x = x53) as Hs by (apply lower_yes; [intros x; destruct x; vm_compute; intros; auto; discriminate|reflexivity|reflexivity]).
  rewrite orb_true_iff, !bool_decide_eq_true. change (bs "y") with [x79]. change (bs "yes") with [x79; x65; x73]. unfold affirmative. split.
  - intros [H|H].
    + destruct a as [|a1 [|]]; try discriminate. injection H as H. left. exists a1. split; [reflexivity|]. apply Hy, H.
    + destruct a as [|a1 [|a2 [|a3 [|]]]]; try discriminate. injection H as H1 H2 H3. right. exists a1, a2, a3. split; [reflexivity|].
      split; [apply Hy, H1|]. split; [apply He, H2|apply Hs, H3].
  - intros [(c & -> & H)|(c1 & c2 & c3 & -> & H1 & H2 & H3)].
    + left. cbn. f_equal. apply Hy, H.
    + right. cbn. f_equal; [apply Hy, H1|]. f_equal; [apply He, H2|]. f_equal. apply Hs, H3.
Qed.
Lemma store_one_exact path m l label v w v' w' : line_words l [bs "store"; label] -> command path m l v w = CRet true v' w' ->
  wFs w' = wFs w /\
  ((exists r a i, slot (vStore v) label = Some r /\ read_line (wIn w) = (Some a, i) /\ ~ affirmative a /\ v' = v) \/
   exists p r, p <> [] /\ head (wPw w) = Some (Some p) /\ vDirty v' = true /\
     sVersion (vStore v') = sVersion (vStore v) /\ sPass (vStore v') = sPass (vStore v) /\ sTime (vStore v') = nth 0 (wClk w) 0 /\
     same_but label (vStore v) (vStore v') /\
     slot (vStore v') label = Some (Some (SRec (rLabel r) (nth 0 (wClk w) 0) (Some p) (rMeta r))) /\
     ((slot (vStore v) label = None /\ r = SRec [] 0 None None) \/
      (slot (vStore v) label = Some (Some r) /\ exists a i, read_line (wIn w) = (Some a, i) /\ affirmative a))).
Proof.
  intros W Cm. eapply store_line in Cm; [|exact W]. pose proof (store_single_state label v w) as St. rewrite Cm in St. specialize (St _ _ eq_refl) as (K & _).
  split; [apply keeps_fs, K|]. clear K.
  assert (slot (vStore v) label = recs (vStore v) !! label) as Es. { unfold slot, recs. destruct (sRecs (vStore v)); [reflexivity|]. cbn. rewrite lookup_empty. reflexivity. }
  assert (forall w1 (r : option srec), wPw w1 = wPw w -> wClk w1 = wClk w -> match w_pass w1 with
    | (None, w) => CRet false v w
    | (Some p, w) =>
        if decide (length p = 0%nat) then CRet false v w else
        match r with
        | None => CPanic v w
        | Some r =>
            let '(now, w) := w_now w in
            let s := SStore (sVersion (vStore v)) now (sRecs (vStore v)) (sPass (vStore v)) in
            match set_rec s label (Some (SRec (rLabel r) now (Some p) (rMeta r))) with
            | Ret s => CRet true (Sess s true) w
            | Panic => CPanic (set_store v s) w
            end
        end
    end = CRet true v' w' -> exists p r', r = Some r' /\ p <> [] /\ head (wPw w) = Some (Some p) /\ vDirty v' = true /\
     sVersion (vStore v') = sVersion (vStore v) /\ sPass (vStore v') = sPass (vStore v) /\ sTime (vStore v') = nth 0 (wClk w) 0 /\
     same_but label (vStore v) (vStore v') /\
     slot (vStore v') label = Some (Some (SRec (rLabel r') (nth 0 (wClk w) 0) (Some p) (rMeta r')))) as A.
  { intros w1 r Ew Ek. destruct (w_pass w1) as [[p|] w2] eqn:Ep; [|discriminate]. apply w_pass_eq in Ep as (Ep & _ & Ec & _).
    destruct (decide _) as [|N]; [discriminate|]. destruct r as [r|]; [|discriminate]. destruct (w_now w2) as [t w3] eqn:En. cbv zeta.
    apply w_now_eq in En as (-> & _). destruct (set_rec _ _ _) as [s1|] eqn:Sr; [|discriminate]. intros [= <- <-].
    apply set_rec_ret in Sr as (mm & Em & ->). cbn in Em |- *. rewrite Ec, Ek. exists p, r. split; [reflexivity|]. split; [intros ->; apply N; reflexivity|].
    split; [rewrite <- Ew, Ep; reflexivity|]. split_and!; auto.
    - intros k Nk. unfold slot. cbn. rewrite Em. apply lookup_insert_ne. congruence.
    - unfold slot. cbn. rewrite lookup_insert. reflexivity. }
  unfold store_single in Cm. destruct (recs (vStore v) !! label) as [r|] eqn:Er.
  - destruct (w_line w) as [[a|] w1] eqn:El; [|discriminate]. apply w_line_eq in El as (El & Ew & Ek & _).
    destruct (_ || _) eqn:Ea.
    + right. apply affirmative_iff in Ea. destruct (A w1 r Ew Ek Cm) as (p & r' & -> & H). exists p, r'. destruct H as (H1 & H2 & H3 & H4 & H5 & H6 & H7 & H8).
      do 8 (split; [assumption|]). right. split; [exact Es|]. eauto.
    + left. injection Cm as <- <-. exists r, a, (wIn w1). split_and!; auto. rewrite <- affirmative_iff, Ea. discriminate.
  - right. destruct (A w (Some (SRec [] 0 None None)) eq_refl eq_refl Cm) as (p & r' & [= <-] & H). exists p, (SRec [] 0 None None). destruct H as (H1 & H2 & H3 & H4 & H5 & H6 & H7 & H8).
    do 8 (split; [assumption|]). left. auto.
Qed.

(** *** C58: the timeout saves *)
Lemma reaches_trans path m a b c : reaches path m a b -> reaches path m b c -> reaches path m a c.
Proof. intros R1 R2. induction R2 as [|x y R IH S]; [exact R1|]. eapply rc_step; eauto. Qed.
Lemma timeout_saves path m v0 w0 r ic v w d salt nonce g1 g2 : plain_path path -> good_clock w0 -> go_store (vStore v0) ->
  reaches path m (cli_start v0 w0) (Cli r LSelect ic false v w d) ->
  vDirty v = true -> sound (vStore v) -> m = 0 \/ m = 1 -> disk_ok w ->
  length salt = 32%nat -> length nonce = 24%nat -> delivers (wRng w) salt g1 -> delivers g1 nonce g2 ->
  cli_step path m (Cli r LSelect ic false v w d) (Cli r LReturned ic true v w d) /\
  forall c, reaches path m (Cli r LReturned ic true v w d) c -> tDone c = d /\
    match tLoop c with
    | LReturned => exists c', cli_step path m c c' /\ tLoop c' = LExited
    | LExited => saved (wFs (tWorld c)) path m (vStore v) /\ hollow (length (default [] (sPass (vStore v)))) (fun _ => False) (vStore (tSess c))
    | _ => False
    end.
Proof.
  intros Pp K G R D So Mo Dk L1 L2 D1 D2. split; [apply st_timeout|].
  assert (good_clock w /\ go_store (vStore v)) as [K1 G1].
  { apply seq_open in R as (w1 & Rn & (i & E & _)); [|discriminate..]. cbn in E. subst w. apply runs_state in Rn as [_ Rc Rg _ _ _]. cbn in *. split; [apply (Rc K)|auto]. }
  destruct (write_session_works path m v w salt nonce g1 g2) as (v' & w' & Ew); auto; [apply Pp|].
  intros c Rc. assert (tDone c = d /\ ((tLoop c = LReturned /\ tSess c = v /\ exists i, tWorld c = set_in w i) \/ (tLoop c = LExited /\ exists i, tWorld c = set_in w' i /\ tSess c = Sess (store_zero (vStore v')) (vDirty v')))) as [Ed H].
  { induction Rc as [|c c' Rc IH S]; [split; [reflexivity|]; left; split_and!; auto; exists (wIn w); symmetry; apply set_in_id|].
    destruct IH as [Ed [(E1 & E2 & i & E3)|(E1 & _)]]; [|apply exited_stuck in S; congruence].
    destruct S; cbn in *; subst; try discriminate; split; auto; try (left; split_and!; auto; eexists; reflexivity).
    right. split; [reflexivity|]. exists i. unfold shutdown in *. erewrite write_session_in in H by exact Ew. injection H as <- <- <-. auto. }
  split; [exact Ed|]. destruct H as [(E1 & E2 & i & E3)|(E1 & i & E3 & E4)]; rewrite E1.
  - destruct c as [r' q' ic' pc' vv ww dd]. cbn in *. subst. destruct (shutdown_total path m v (set_in w i)) as (ok & v2 & w2 & Es). eexists. split; [eapply st_shutdown, Es|reflexivity].
  - rewrite E3. cbn. pose proof Ew as (Sv & _ & Wp)%write_session_saves; auto. split; [exact Sv|]. rewrite E4. cbn. apply hollow_zero.
    destruct So as (_ & _ & _ & Ns). destruct (sPass (vStore v)) as [p|] eqn:Ep; [|congruence]. eapply wiped_hollow; [exact Wp|exact Ep|reflexivity].
Qed.

(** A line held at the timeout is never run. *)
Lemma returned_done path m c0 c : tLoop c0 = LReturned -> reaches path m c0 c -> tDone c = tDone c0 /\ (tLoop c = LReturned \/ tLoop c = LExited).
Proof.
  intros E R. induction R as [|c c' R IH S]; [auto|]. destruct IH as [E1 [E2|E2]].
  - apply no_more in S as [S1 S2]; [|exact E2]. split; [congruence|exact S2].
  - apply exited_stuck in S. congruence.
Qed.
Lemma timeout_drops path m l ic v w d :
  cli_step path m (Cli (RSend l) LSelect ic false v w d) (Cli (RSend l) LReturned ic true v w d) /\
  forall c, reaches path m (Cli (RSend l) LReturned ic true v w d) c -> tDone c = d.
Proof. split; [apply st_timeout|]. intros c R. apply returned_done in R as [R _]; [exact R|reflexivity]. Qed.
(** Every sequence of commands is an execution of the threads. *)
Lemma runs_reach path m v w ls v' w' : runs path m v w ls v' w' -> forall d c0, reaches path m c0 (Cli RRead LSelect false false v w d) ->
  reaches path m c0 (Cli RRead LSelect false false v' w' (d ++ ls)).
Proof.
  induction 1 as [|v w i ls v' w' E R IH|v w i l ok v1 w1 ls v' w' E N Q Cm R IH]; intros d c0 Rc.
  - rewrite app_nil_r. exact Rc.
  - apply IH. eapply rc_step; [exact Rc|]. apply st_blank; [discriminate|exact E].
  - replace (d ++ l :: ls) with ((d ++ [l]) ++ ls) by (rewrite <- app_assoc; reflexivity). apply IH.
    eapply rc_step; [eapply rc_step; [eapply rc_step; [eapply rc_step; [exact Rc|]|]|]|].
    + eapply st_line; [discriminate|exact E|exact N].
    + apply st_hand, Q.
    + eapply st_run, Cm.
    + apply st_reply.
Qed.
Lemma runs_realised path m v w ls v' w' : runs path m v w ls v' w' -> reaches path m (cli_start v w) (Cli RRead LSelect false false v' w' ls).
Proof. intros R. apply (runs_reach path m v w ls v' w' R [] (cli_start v w)). constructor. Qed.
End WithCrypto.

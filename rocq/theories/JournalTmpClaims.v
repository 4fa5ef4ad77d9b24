(** Proofs about JournalTmp.v. *)
From Verif Require Export SpecJournalTmp CmdJournalFacts.
Local Open Scope Z_scope.

Lemma written E p content f : snd (write_file (eWrite E) (<[p := []]> f) p content) = <[p := arrives (eWrite E) content]> f.
Proof. destruct (eWrite E); cbn; [apply insert_insert|reflexivity|apply insert_insert]. Qed.
Lemma session_eq E p content f : eName E = Some p ->
  session E content f =
    let '(ok, g) := eRun E (editor_args (eProg E) p) (<[p := arrives (eWrite E) content]> f) in
    let g1 := snd (os_remove (eRm1 E) p g) in
    (if ok && eRead E then g !! p else None, snd (os_remove (eRm2 E) p g1), if fst (os_remove (eRm1 E) p g) then [] else warning p (eReason E)).
Proof.
  intros Ep. unfold session. rewrite Ep. pose proof (written E p content f) as W. destruct (write_file _ _ _ _) as [b f1]. cbn in W. subst f1.
  destruct (eRun _ _ _) as [ok g]. destruct (os_remove (eRm1 E) p g) as [r1 g1]. cbn. destruct (os_remove (eRm2 E) p g1) as [r2 g2]. reflexivity.
Qed.
Lemma session_none E content f : eName E = None -> session E content f = (None, f, []).
Proof. intros Ep. unfold session. rewrite Ep. reflexivity. Qed.
Lemma remove_other can p f q : q <> p -> snd (os_remove can p f) !! q = f !! q.
Proof. intros N. unfold os_remove. destruct (f !! p); [|reflexivity]. destruct can; [|reflexivity]. cbn. apply lookup_delete_ne. congruence. Qed.
Lemma remove_gone can p f : snd (os_remove can p f) !! p = None <-> can = true \/ f !! p = None.
Proof.
  unfold os_remove. destruct (f !! p) as [d|] eqn:E.
  - destruct can; cbn; [rewrite lookup_delete; tauto|]. rewrite E. split; [discriminate|intros [?|?]; discriminate].
  - cbn. rewrite E. tauto.
Qed.
Lemma remove_said can p f : fst (os_remove can p f) = true <-> can = true /\ is_Some (f !! p).
Proof. unfold os_remove. destruct (f !! p); [|split; [discriminate|intros [_ [? [=]]]]]. destruct can; cbn; [split; eauto|]. split; [discriminate|intros [[=] _]]. Qed.

(** Which files are left. *)
Lemma session_gone E p content f : eName E = Some p ->
  snd (fst (session E content f)) !! p = None <->
  eRm1 E = true \/ eRm2 E = true \/ snd (eRun E (editor_args (eProg E) p) (<[p := arrives (eWrite E) content]> f)) !! p = None.
Proof. intros Ep. rewrite (session_eq E p) by exact Ep. destruct (eRun _ _ _) as [ok g]. cbn. rewrite !remove_gone. tauto. Qed.
Lemma session_others E p content f q : eName E = Some p -> tidy E p -> q <> p -> snd (fst (session E content f)) !! q = f !! q.
Proof.
  intros Ep T N. rewrite (session_eq E p) by exact Ep. pose proof (T (editor_args (eProg E) p) (<[p := arrives (eWrite E) content]> f) q N) as H.
  destruct (eRun _ _ _) as [ok g]. cbn in *. rewrite !remove_other, H, lookup_insert_ne by congruence. reflexivity.
Qed.
Lemma session_restores E content f : (forall p, eName E = Some p -> f !! p = None /\ tidy E p /\ (eRm1 E = true \/ eRm2 E = true)) -> snd (fst (session E content f)) = f.
Proof.
  intros H. destruct (eName E) as [p|] eqn:Ep; [|rewrite session_none by exact Ep; reflexivity]. destruct (H p eq_refl) as (Hf & T & R). apply map_eq. intros q.
  destruct (decide (q = p)) as [->|N]; [|apply (session_others E p); assumption]. rewrite Hf. apply (session_gone E p content f Ep). tauto.
Qed.
Lemma session_warns E p content f : eName E = Some p ->
  snd (session E content f) = [] <-> eRm1 E = true /\ is_Some (snd (eRun E (editor_args (eProg E) p) (<[p := arrives (eWrite E) content]> f)) !! p).
Proof.
  intros Ep. rewrite (session_eq E p) by exact Ep. destruct (eRun _ _ _) as [ok g]. cbn. rewrite <- remove_said. destruct (fst (os_remove _ _ _)); [tauto|]. split; discriminate.
Qed.
Lemma session_result E p content f : eName E = Some p ->
  fst (fst (session E content f)) =
  let '(ok, g) := eRun E (editor_args (eProg E) p) (<[p := arrives (eWrite E) content]> f) in if ok && eRead E then g !! p else None.
Proof. intros Ep. rewrite (session_eq E p) by exact Ep. destruct (eRun _ _ _) as [ok g]. reflexivity. Qed.

(** *** Killed on the way *)
Lemma states_others E mid p content f : eName E = Some p -> tidy E p -> (forall g h q, h ∈ mid g -> q <> p -> h !! q = g !! q) ->
  forall h q, h ∈ session_states E mid content f -> q <> p -> h !! q = f !! q.
Proof.
  intros Ep T M h q H N. unfold session_states in H. rewrite Ep in H. rewrite written in H.
  assert (forall d, <[p := d]> f !! q = f !! q) as I1 by (intros d; apply lookup_insert_ne; congruence).
  assert (forall d h, h ∈ write_states (<[p := []]> f) p d -> h !! q = f !! q) as WS.
  { intros d h' H'. unfold write_states in H'. apply elem_of_cons in H' as [->|H']; [apply I1|]. apply elem_of_list_In, in_map_iff in H' as (n & <- & _). rewrite insert_insert. apply I1. }
  pose proof (T (editor_args (eProg E) p) (<[p := arrives (eWrite E) content]> f) q N) as H2. rewrite I1 in H2.
  apply elem_of_app in H as [H|H]; [|apply elem_of_app in H as [H|H]; [|apply elem_of_app in H as [H|H]]].
  - rewrite !elem_of_cons in H. destruct H as [->|[->|H]]; [reflexivity|apply I1|inversion H].
  - destruct (eWrite E); [eauto|inversion H|eauto].
  - rewrite (M _ _ _ H N). apply I1.
  - rewrite !elem_of_cons in H. destruct H as [->|[->|[->|H]]]; [exact H2|rewrite remove_other by exact N; exact H2|rewrite !remove_other by exact N; exact H2|inversion H].
Qed.
Lemma states_clear E mid p content f : eName E = Some p -> eWrite E = WOk -> exists h, h ∈ session_states E mid content f /\ h !! p = Some content.
Proof.
  intros Ep Ew. exists (<[p := content]> f). split; [|apply lookup_insert]. unfold session_states. rewrite Ep, Ew. apply elem_of_app. right. apply elem_of_app. left.
  unfold write_states. apply elem_of_cons. right. apply elem_of_list_In, in_map_iff. exists (length content). split; [rewrite insert_insert, firstn_all; reflexivity|]. apply in_seq. lia.
Qed.
Lemma states_last E mid content f : last (session_states E mid content f) = Some (snd (fst (session E content f))).
Proof.
  unfold session_states. destruct (eName E) as [p|] eqn:Ep; [|rewrite session_none by exact Ep; reflexivity]. rewrite (session_eq E p) by exact Ep. rewrite written.
  rewrite !app_assoc. rewrite last_app. cbn. destruct (eRun _ _ _) as [ok g]. reflexivity.
Qed.

(** *** The command line of the editor *)
Lemma split_blank_ne s : split_blank s <> [].
Proof. destruct s as [|c s]; [discriminate|]. cbn. case_decide; [discriminate|]. destruct (split_blank s); discriminate. Qed.
Lemma unwords_cons w ws : ws <> [] -> unwords (w :: ws) = w ++ [x20] ++ unwords ws.
Proof. destruct ws; [congruence|reflexivity]. Qed.
Lemma split_blank_spec s : unwords (split_blank s) = s /\ Forall (fun w => x20 ∉ w) (split_blank s).
Proof.
  induction s as [|c s [IH1 IH2]]; [split; [reflexivity|]; constructor; [intros H; inversion H|constructor]|]. cbn [split_blank]. case_decide as D.
  - split; [|constructor; [intros H; inversion H|exact IH2]]. rewrite unwords_cons by apply split_blank_ne. rewrite IH1, D. reflexivity.
  - pose proof (split_blank_ne s) as Ne. destruct (split_blank s) as [|w ws]; [congruence|]. apply Forall_cons in IH2 as [H1 H2]. split.
    + rewrite <- IH1. destruct ws; reflexivity.
    + constructor; [|exact H2]. intros H. apply elem_of_cons in H as [H|H]; [congruence|auto].
Qed.
Lemma args_spec prog file : exists ws, editor_args prog file = ws ++ [file] /\ ws <> [] /\ Forall (fun w => x20 ∉ w) ws /\
  unwords ws = if decide (prog = []) then bs "vim -f -n -i NONE +star" else prog.
Proof.
  unfold editor_args. eexists. split; [reflexivity|]. split; [apply split_blank_ne|]. destruct (split_blank_spec (if decide (prog = []) then default_editor else prog)) as [H1 H2]. auto.
Qed.

(** *** The commands *)
Lemma w_session_clean E d w : clean E (wFs w) -> w_session E d w = (fst (fst (session E d (wFs w))), w).
Proof.
  intros (p & Ep & H1 & H2 & H3 & H4). unfold w_session. assert (snd (fst (session E d (wFs w))) = wFs w) as E1.
  { apply session_restores. intros q Eq. rewrite Ep in Eq. injection Eq as <-. auto. }
  assert (snd (session E d (wFs w)) = []) as E2.
  { apply (session_warns E p); [exact Ep|]. split; [exact H4|]. apply H3. rewrite lookup_insert. eauto. }
  destruct (session E d (wFs w)) as [[r f] t]. cbn in *. subst. destruct w. unfold w_print, set_fs. cbn. rewrite app_nil_r. reflexivity.
Qed.
Section Runs.
Context (E : tmpenv) (f : fs) (Cl : clean E f).
Lemma edit_tmp s c w : wFs w = f -> edit_entry_tmp E s c w = edit_entry s (edits_with E f c) w.
Proof.
  intros Ef. rewrite <- Ef in *. unfold edit_entry_tmp, edit_entry. change (jarg0 (edits_with E (wFs w) c)) with (jarg0 c). destruct (recs s !! jarg0 c) as [[r|]|]; [| |reflexivity].
  - rewrite w_session_clean by exact Cl. unfold edits_with. cbn [jEdit]. destruct (fst (fst (session E _ (wFs w)))); reflexivity.
  - destruct Cl as (p & -> & H1 & _ & _ & ->). f_equal. unfold os_remove. rewrite lookup_insert. cbn. rewrite delete_insert by exact H1. destruct w. reflexivity.
Qed.
Lemma now_fs w t w' : w_now w = (t, w') -> wFs w' = wFs w.
Proof. unfold w_now. destruct (wClk w); intros [= <- <-]; reflexivity. Qed.
Lemma line_fs w t w' : w_line w = (t, w') -> wFs w' = wFs w.
Proof. unfold w_line. destruct (read_line (wIn w)); intros [= <- <-]; reflexivity. Qed.
Lemma new_tmp s title c w : wFs w = f -> new_entry_tmp E s title c w = new_entry s title (edits_with E f c) w.
Proof.
  intros Ef. unfold new_entry_tmp, new_entry. destruct (w_now w) as [t w1] eqn:E1. apply now_fs in E1. rewrite Ef in E1.
  rewrite w_session_clean by (rewrite E1; exact Cl). rewrite E1. change (jFmt (edits_with E f c)) with (jFmt c). unfold edits_with. cbn [jEdit]. destruct (fst (fst (session E _ f))); reflexivity.
Qed.
Lemma write_tmp s c w : wFs w = f -> write_new_tmp E s c w = write_new s (edits_with E f c) w.
Proof.
  intros Ef. unfold write_new_tmp, write_new. change (jarg0 (edits_with E f c)) with (jarg0 c). destruct (store_has s _); [|apply new_tmp, Ef].
  destruct (w_line w) as [[a|] w1] eqn:E1; [|reflexivity]. apply line_fs in E1. destruct (_ || _); [apply edit_tmp; congruence|].
  destruct (w_line w1) as [[t|] w2] eqn:E2; [|reflexivity]. apply line_fs in E2. case_decide; [reflexivity|]. apply new_tmp. congruence.
Qed.
End Runs.
Lemma run_tmp `{C : Crypto} E m x path c w : clean E (wFs w) -> journal_run_tmp E m x path c w = journal_run m x path (edits_with E (wFs w) c) w.
Proof.
  intros Cl. unfold journal_run_tmp, journal_run. change (jArgs (edits_with E (wFs w) c)) with (jArgs c). case_decide; [reflexivity|]. unfold with_store.
  pose proof (load_store_frame path m w) as Fr. destruct (load_store path m w) as [s w1|w1|w1|] eqn:El; [|reflexivity..]. cbn [then_].
  assert (wFs w1 = wFs w) as Ef by (specialize (Fr w1); apply Fr; auto). f_equal. destruct x; cbn; [apply edit_tmp; assumption|reflexivity|reflexivity|apply write_tmp; assumption].
Qed.
(** The write that fails is not noticed. *)
Lemma tmp_lost `{L : CryptoLaws} E m path c w w' : clean E (wFs w) -> willing E -> looks E -> plain_path path -> good_clock w -> journal_run_tmp E m JEdit path c w = Done tt w' ->
  exists pass s s' title rest r, head (wPw w) = Some (Some pass) /\ jArgs c = title :: rest /\ opens (wFs w) path m pass s /\ saved (wFs w') path m s' /\ same_but title s s' /\ slot s title = Some (Some r) /\ slot s' title = Some (Some (SRec (rLabel r) (rTime r) (Some (arrives (eWrite E) (default [] (rSecret r)))) (rMeta r))).
Proof.
  intros Cl [W1 W2] Lk P K H. rewrite run_tmp in H by exact Cl. apply journal_edit in H as (pass & s & s' & title & rest & r & d & H1 & H2 & H3 & H4 & H5 & H6 & H7 & H8 & H9 & H10); [|assumption..].
  exists pass, s, s', title, rest, r. do 6 (split; [assumption|]). rewrite H10. do 3 f_equal. unfold edits_with in H9. cbn [jEdit] in H9. destruct Cl as (p & Ep & _).
  rewrite (session_result E p) in H9 by exact Ep. rewrite Lk, W1 in H9. cbn in H9. rewrite lookup_insert in H9. congruence.
Qed.
(** However the run ends, the temporary file is gone. *)
Definition stays_gone {A} (p : bytes) (w : world) (r : res A) : Prop := wFs w !! p = None -> forall w', res_world r = Some w' -> wFs w' !! p = None.
Section Gone.
Context (E : tmpenv) (p : bytes) (Ep : eName E = Some p) (Rm : eRm1 E = true).
Lemma w_session_gone d w r w' : w_session E d w = (r, w') -> wFs w' !! p = None.
Proof.
  unfold w_session. pose proof (session_gone E p d (wFs w) Ep) as H. destruct (session E d (wFs w)) as [[r0 f] t]. intros [= <- <-]. cbn in *. apply H. auto.
Qed.
Lemma lift_gone {A} (o : outcome A) w (k : A -> world -> res (bool * sstore)) : (forall a, stays_gone p w (k a w)) -> stays_gone p w (then_ (lift o w) k).
Proof. intros H. destruct o as [a|]; cbn; [apply H|]. intros Hf w' [= <-]. exact Hf. Qed.
Lemma edit_gone s c w : stays_gone p w (edit_entry_tmp E s c w).
Proof.
  intros Hf w'. unfold edit_entry_tmp. destruct (recs s !! jarg0 c) as [[r|]|]; [| |intros [= <-]; exact Hf].
  - destruct (w_session E _ w) as [[d|] w1] eqn:Es; apply w_session_gone in Es; [|intros [= <-]; exact Es]. destruct (set_rec _ _ _); cbn; intros [= <-]; exact Es.
  - rewrite Ep, Rm. cbn. intros [= <-]. unfold os_remove. rewrite lookup_insert. cbn. apply lookup_delete.
Qed.
Lemma new_gone s t c w : stays_gone p w (new_entry_tmp E s t c w).
Proof.
  intros Hf w'. unfold new_entry_tmp. destruct (w_now w) as [t0 w1]. destruct (w_session E _ w1) as [[d|] w2] eqn:Es; apply w_session_gone in Es; [|intros [= <-]; exact Es].
  destruct (w_now w2) as [now w3] eqn:E3. apply now_fs in E3. destruct (set_rec _ _ _); cbn; intros [= <-]; rewrite E3; exact Es.
Qed.
Lemma write_gone s c w : stays_gone p w (write_new_tmp E s c w).
Proof.
  intros Hf w'. unfold write_new_tmp. destruct (store_has s _); [|apply new_gone, Hf]. destruct (w_line w) as [[a|] w1] eqn:E1; apply line_fs in E1; [|intros [= <-]; rewrite E1; exact Hf].
  destruct (_ || _); [apply edit_gone; rewrite E1; exact Hf|]. destruct (w_line w1) as [[t|] w2] eqn:E2; apply line_fs in E2; [|intros [= <-]; rewrite E2, E1; exact Hf].
  case_decide; [intros [= <-]; rewrite E2, E1; exact Hf|]. apply new_gone. rewrite E2, E1. exact Hf.
Qed.
Lemma jrun_gone x s c w : stays_gone p w (jrun_tmp E x s c w).
Proof.
  destruct x; cbn; [apply edit_gone| | |apply write_gone]; intros Hf w' H.
  - assert (keeps w w') as K by (apply (jrun_framed JList c s w); exact H). rewrite (keeps_fs _ _ K). exact Hf.
  - assert (keeps w w') as K by (apply (jrun_framed JShow c s w); exact H). rewrite (keeps_fs _ _ K). exact Hf.
Qed.
Lemma run_gone `{C : Crypto} m x path c w w' : p <> path -> wFs w !! p = None -> ends (journal_run_tmp E m x path c w) w' -> wFs w' !! p = None.
Proof.
  intros N Hf H. apply ends_iff in H. unfold journal_run_tmp in H. destruct (decide _) in H; [injection H as <-; exact Hf|]. unfold with_store in H. pose proof (load_store_frame path m w) as Fl.
  destruct (load_store path m w) as [s w1|w1|w1|] eqn:El; cbn [then_] in H; [|injection H as <-; rewrite (keeps_fs w w1); [exact Hf|apply Fl; reflexivity]..|discriminate].
  assert (wFs w1 !! p = None) as Hf1 by (rewrite (keeps_fs w w1); [exact Hf|apply Fl; reflexivity]).
  pose proof (jrun_gone x s c w1 Hf1) as G. destruct (jrun_tmp E x s c w1) as [[u s1] w2|w2|w2|]; cbn [then_ fst snd] in H; [|injection H as <-; apply G; reflexivity..|discriminate].
  specialize (G w2 eq_refl). destruct u; [|injection H as <-; exact G]. destruct (w_now w2) as [now w3] eqn:E3. apply now_fs in E3.
  assert (only_changes path (wFs w3) (wFs w')) as O by (eapply write_store_only; apply ends_iff; exact H). rewrite (O p) by congruence. rewrite E3. exact G.
Qed.
End Gone.

(** The statements about the secrets command. *)
From Verif Require Export SpecCmdSecrets CmdSecretsFacts.
Local Open Scope Z_scope.

Lemma hears_app i ls i1 : hears i ls i1 -> forall ls' i2, hears i1 ls' i2 -> hears i (ls ++ ls') i2.
Proof. induction 1; intros ls' i2 H2; cbn; [exact H2|]. econstructor; eauto. Qed.
Lemma dialogue_nil i i' : read_line i = (Some [], i') -> dialogue i [] i'.
Proof. intros E. split; [constructor|]. cbn. econstructor; [exact E|constructor]. Qed.
Lemma dialogue_cons i l i1 ls i' : l <> [] -> read_line i = (Some l, i1) -> dialogue i1 ls i' -> dialogue i (l :: ls) i'.
Proof. intros N E [F H]. split; [constructor; assumption|]. cbn. econstructor; eauto. Qed.
Lemma dialogue_inv i ls i' : dialogue i ls i' ->
  (ls = [] /\ read_line i = (Some [], i')) \/
  (exists l ls' i1, ls = l :: ls' /\ l <> [] /\ read_line i = (Some l, i1) /\ dialogue i1 ls' i').
Proof.
  intros [F H]. destruct ls as [|l ls]; cbn in H; inversion H; subst.
  - inversion H5; subst. auto.
  - inversion F; subst. right. exists l, ls, i1. split_and!; auto. split; assumption.
Qed.
Lemma dialogue_fun i ls i' ls2 i2 : dialogue i ls i' -> dialogue i ls2 i2 -> ls = ls2 /\ i' = i2.
Proof.
  revert i ls2. induction ls as [|l ls IH]; intros i ls2 D D2; apply dialogue_inv in D as [[E R]|(l1 & ls1 & i1 & E & N & R & D)]; try discriminate;
    apply dialogue_inv in D2 as [[E2 R2]|(l2 & ls2' & i3 & E2 & N2 & R2 & D2)]; subst; rewrite R in R2; try congruence.
  - injection R2 as ->. auto.
  - injection E as <- <-. injection R2 as <- <-. destruct (IH _ _ D D2) as [-> ->]. auto.
Qed.

Section WithCrypto.
Context `{C : Crypto} {L : CryptoLaws}.

(** *** store *)
Lemma add_plain_done s c w s' w' : add_plain s c w = Done s' w' ->
  exists p r m, wPw w = Some p :: wPw w' /\ p <> [] /\ wIn w' = wIn w /\ wClk w' = drop 1 (wClk w) /\ wRng w' = wRng w /\
    ((slot s (arg0 c) = None /\ r = SRec (arg0 c) 0 None None) \/ (slot s (arg0 c) = Some (Some r) /\ cOver c = true)) /\
    sRecs s = Some m /\
    s' = SStore (sVersion s) (sTime s) (Some (<[arg0 c := Some (SRec (rLabel r) (nth 0 (wClk w) 0) (Some p) (rMeta r))]> m)) (sPass s).
Proof.
  assert (forall r, match w_pass w with
    | (None, w) => Fail w
    | (Some p, w) =>
        if decide (length p = 0%nat) then Fail w else
        match r with
        | None => Crash w
        | Some r => let '(now, w) := w_now w in lift (set_rec s (arg0 c) (Some (SRec (rLabel r) now (Some p) (rMeta r)))) w
        end
    end = Done s' w' -> exists p r0 m, r = Some r0 /\ wPw w = Some p :: wPw w' /\ p <> [] /\ wIn w' = wIn w /\ wClk w' = drop 1 (wClk w) /\ wRng w' = wRng w /\
       sRecs s = Some m /\
       s' = SStore (sVersion s) (sTime s) (Some (<[arg0 c := Some (SRec (rLabel r0) (nth 0 (wClk w) 0) (Some p) (rMeta r0))]> m)) (sPass s)) as A.
  { intros r. destruct (w_pass w) as [[p|] w1] eqn:E; [|discriminate]. apply w_pass_eq in E as (E1 & E2 & E3 & E4 & _).
    destruct (decide _) as [|N]; [discriminate|]. destruct r as [r|]; [|discriminate]. destruct (w_now w1) as [t w2] eqn:En.
    apply w_now_eq in En as (-> & N1 & N2 & N3 & N4 & _). intros H. apply lift_done in H as [H ->]. apply set_rec_ret in H as (m & Em & ->).
    exists p, r, m. rewrite N3, N2, N1, N4, E1, E2, E3, E4. split_and!; auto. intros ->. apply N. reflexivity. }
  unfold add_plain. rewrite <- slot_recs. destruct (slot s (arg0 c)) as [r|] eqn:Es; [destruct (cOver c)|]; [|discriminate|].
  - intros H. apply A in H as (p & r0 & m & -> & H). exists p, r0, m. intuition.
  - intros H. apply (A (Some _)) in H as (p & r0 & m & [= <-] & H). exists p, (SRec (arg0 c) 0 None None), m. intuition.
Qed.
Lemma meta_loop_done n : forall md w md' w', meta_loop n md w = Done md' w' ->
  exists ls, dialogue (wIn w) ls (wIn w') /\ dictates ls md md' /\ wPw w' = wPw w /\ wClk w' = wClk w /\ wRng w' = wRng w.
Proof.
  induction n as [|n IH]; intros md w md' w'; cbn [meta_loop]; [discriminate|].
  destruct (w_line w) as [[line|] w1] eqn:E; [|discriminate]. apply w_line_eq in E as (R & E1 & E2 & E3 & _).
  destruct (decide (line = [])) as [->|N].
  - intros [= <- <-]. exists []. split_and!; auto; [apply dialogue_nil; exact R|constructor].
  - destruct (split_meta line) as [[k v]|] eqn:S; intros H; apply IH in H as (ls & D & T & F1 & F2 & F3); exists (line :: ls).
    + split_and!; try congruence; [eapply dialogue_cons; eauto|]. eapply dc_pair; [apply split_meta_some; exact S|exact T].
    + split_and!; try congruence; [eapply dialogue_cons; eauto|]. apply dc_skip; [apply split_meta_none; exact S|exact T].
Qed.
Lemma meta_loop_does ls : forall n md md' w i', dialogue (wIn w) ls i' -> dictates ls md md' -> (length ls < n)%nat ->
  exists w', meta_loop n md w = Done md' w' /\ wIn w' = i' /\ wPw w' = wPw w /\ wClk w' = wClk w /\ wRng w' = wRng w /\ wFate w' = wFate w /\ wFs w' = wFs w.
Proof.
  induction ls as [|l ls IH]; intros n md md' w i' D T Ln; (destruct n as [|n]; [cbn in Ln; lia|]); cbn [meta_loop];
    apply dialogue_inv in D as [[E R]|(l1 & ls1 & i1 & E & N & R & D)]; try discriminate; unfold w_line; rewrite R.
  - rewrite decide_True by reflexivity. inversion T; subst. eexists. split; [reflexivity|]. cbn. split_and!; reflexivity.
  - injection E as <- <-. rewrite decide_False by exact N. set (w1 := World _ i1 _ _ _ _ _).
    inversion T as [|? k v ? ? ? ML T'|? ? ? ? NE T']; subst.
    + destruct (split_meta l) as [[k' v']|] eqn:S.
      * apply split_meta_some in S. destruct (meta_line_fun _ _ _ _ _ ML S) as [<- <-].
        destruct (IH n (<[k := Some v]> md) md' w1 i' D T') as (w' & E & H); [cbn in Ln; lia|]. exists w'. auto.
      * apply split_meta_none in S. destruct ML as (a & b & -> & _). exfalso. apply S. apply elem_of_app. right. left.
    + destruct (split_meta l) as [[k' v']|] eqn:S.
      * apply split_meta_some in S. destruct S as (a & b & -> & _). exfalso. apply NE. apply elem_of_app. right. left.
      * destruct (IH n md md' w1 i' D T') as (w' & E & H); [cbn in Ln; lia|]. exists w'. auto.
Qed.

Lemma arg0_cons c : (1 <= length (cArgs c))%nat -> exists rest, cArgs c = arg0 c :: rest.
Proof. unfold arg0. destruct (cArgs c); cbn; [lia|eauto]. Qed.

(** The record that store leaves under its label. *)
Lemma store_exact n m path c w w' : plain_path path -> good_clock w -> run_cmd n m CStore path c w = Done tt w' ->
  exists pass s s' label rest r', head (wPw w) = Some (Some pass) /\ cArgs c = label :: rest /\
    opens (wFs w) path m pass s /\ saved (wFs w') path m s' /\ sPass s' = Some pass /\ sVersion s' = sVersion s /\
    same_but label s s' /\ slot s' label = Some (Some r') /\
    (cMeta c = false -> exists p, nth_error (wPw w) 1 = Some (Some p) /\ p <> [] /\
        rSecret r' = Some p /\ rTime r' = nth 0 (wClk w) 0 /\ sTime s' = nth 1 (wClk w) 0 /\
        ((slot s label = None /\ rLabel r' = label /\ rMeta r' = None) \/
         (cOver c = true /\ exists r, slot s label = Some (Some r) /\ rLabel r' = rLabel r /\ rMeta r' = rMeta r))) /\
    (cMeta c = true -> exists ls md i', dialogue (wIn w) ls i' /\ rMeta r' = Some md /\
        ((slot s label = None /\ rLabel r' = label /\ dictates ls ∅ md /\
          exists p, nth_error (wPw w) 1 = Some (Some p) /\ p <> [] /\ rSecret r' = Some p) \/
         (exists r, slot s label = Some (Some r) /\ rLabel r' = rLabel r /\ rSecret r' = rSecret r /\ dictates ls (default ∅ (rMeta r)) md))).
Proof.
  intros P K H. apply run_cmd_done in H as (La & pass & s & w1 & s1 & w2 & E1 & O & G & Ep & Kw & E2 & E3 & E4 & E5 & R & G1 & Sv & _); [|assumption..].
  destruct (Sv eq_refl) as [Sv1 Snd]. destruct (arg0_cons c La) as [rest Ea]. clear Sv. cbn [run] in R. unfold add_secret in R.
  exists pass, s, (SStore (sVersion s1) (nth 0 (wClk w2) 0) (sRecs s1) (sPass s1)), (arg0 c), rest.
  assert (forall k, slot (SStore (sVersion s1) (nth 0 (wClk w2) 0) (sRecs s1) (sPass s1)) k = slot s1 k) as Sl by reflexivity.
  unfold same_but. setoid_rewrite Sl. rewrite E1. cbn [head nth_error sPass sTime sVersion].
  destruct (cMeta c).
  - unfold add_meta in R. apply then_done in R as (s2 & w3 & R1 & R2).
    assert (exists r2, recs s2 !! arg0 c = Some (Some r2)) as [r2 Er2] by (destruct (recs s2 !! arg0 c) as [[r2|]|]; [eauto|discriminate..]).
    rewrite Er2 in R2. apply then_done in R2 as (md & w4 & R2 & R3). destruct (w_now w4) as [t w5] eqn:En. apply lift_done in R3 as [R3 ->].
    apply meta_loop_done in R2 as (ls & D & T & F1 & F2 & F3). apply set_rec_ret in R3 as (m2 & Em2 & ->).
    unfold slot in *. cbn [sRecs]. eexists. split_and!; eauto; cbn [sPass sVersion].
    + destruct (store_has s (arg0 c)); [injection R1 as -> _; exact Ep|]. apply add_plain_done in R1 as (p & r & m3 & _ & _ & _ & _ & _ & _ & _ & ->). exact Ep.
    + destruct (store_has s (arg0 c)); [injection R1 as -> _; reflexivity|]. apply add_plain_done in R1 as (p & r & m3 & _ & _ & _ & _ & _ & _ & _ & ->). reflexivity.
    + intros k Nk. rewrite lookup_insert_ne by congruence. destruct (store_has s (arg0 c)).
      * injection R1 as -> _. rewrite Em2. reflexivity.
      * apply add_plain_done in R1 as (p & r & m3 & _ & _ & _ & _ & _ & _ & Em3 & ->). cbn [sRecs] in Em2. injection Em2 as <-.
        rewrite Em3. rewrite lookup_insert_ne by congruence. reflexivity.
    + apply lookup_insert.
    + discriminate.
    + intros _. exists ls, md, (wIn w4). cbn [rMeta rLabel rSecret].
      pose proof (slot_recs s (arg0 c)) as Sr. unfold slot in Sr.
      destruct (store_has s (arg0 c)) eqn:Hs.
      * injection R1 as -> ->. rewrite E2 in D. split_and!; auto. right. exists r2. rewrite Sr. auto.
      * pose proof (add_plain_done _ _ _ _ _ R1) as (p & r & m3 & A1 & A2 & A3 & _ & _ & A5 & A6 & ->). rewrite A3, E2 in D. split_and!; auto. left.
        unfold recs in Er2. cbn [sRecs from_option id] in Er2. rewrite lookup_insert in Er2. injection Er2 as <-. cbn [rLabel rMeta rSecret] in *.
        assert (slot s (arg0 c) = None) as Ns.
        { unfold store_has in Hs. apply bool_decide_eq_false in Hs. rewrite slot_recs. apply eq_None_not_Some. exact Hs. }
        destruct A5 as [[_ ->]|[A5 _]]; [|congruence]. unfold slot in Ns. cbn [rMeta rLabel default] in *. split_and!; auto. exists p. rewrite A1. auto.
  - pose proof (add_plain_done _ _ _ _ _ R) as (p & r & m2 & A1 & A2 & A3 & A4 & A4' & A5 & A6 & ->). unfold slot in *. cbn [sRecs sPass sVersion].
    eexists. split_and!; eauto.
    + intros k Nk. rewrite lookup_insert_ne by congruence. rewrite A6. reflexivity.
    + apply lookup_insert.
    + intros _. exists p. rewrite A1. cbn [rSecret rTime rLabel rMeta]. rewrite E3. split_and!; auto.
      * rewrite A4, E3. destruct (wClk w) as [|? [|? ?]]; reflexivity.
      * destruct A5 as [[A5 ->]|[A5 A7]]; [left; auto|]. right. split; [exact A7|]. exists r. auto.
    + discriminate.
Qed.

(** store without -w (and without -m) refuses an existing label. *)
Lemma store_refuses n m path c w w1 s : load_store path m w = Done s w1 -> slot s (arg0 c) <> None -> cOver c = false -> cMeta c = false ->
  exists w', run_cmd n m CStore path c w = Fail w' /\ wFs w' = wFs w.
Proof.
  intros E S O M.
  unfold run_cmd. cbn [required]. destruct (decide _); [eauto|]. rewrite E. cbn [then_ run]. unfold add_secret. rewrite M. unfold add_plain.
  rewrite <- slot_recs. destruct (slot s (arg0 c)); [|congruence]. rewrite O. cbn. exists w1. split; [reflexivity|].
  apply keeps_fs. apply (load_store_frame path m w). rewrite E. reflexivity.
Qed.

(** *** remove *)
Lemma remove_exact n m path c w w' : plain_path path -> good_clock w -> cMeta c = false -> run_cmd n m CRemove path c w = Done tt w' ->
  exists pass s s' label rest, head (wPw w) = Some (Some pass) /\ cArgs c = label :: rest /\
    opens (wFs w) path m pass s /\ saved (wFs w') path m s' /\ sPass s' = Some pass /\ sVersion s' = sVersion s /\
    slot s label <> None /\ slot s' label = None /\ same_but label s s' /\ sTime s' = nth 0 (wClk w) 0.
Proof.
  intros P K M H. apply run_cmd_done in H as (La & pass & s & w1 & s1 & w2 & E1 & O & G & Ep & Kw & E2 & E3 & E4 & E5 & R & G1 & Sv & _); [|assumption..].
  destruct (Sv eq_refl) as [Sv1 Snd]. destruct (arg0_cons c La) as [rest Ea]. cbn [run] in R. unfold remove_secret in R. rewrite M in R.
  destruct (store_has s (arg0 c)) eqn:Hs; [|discriminate]. injection R as <- <-.
  exists pass, s, (SStore (sVersion (del_rec s (arg0 c))) (nth 0 (wClk w1) 0) (sRecs (del_rec s (arg0 c))) (sPass (del_rec s (arg0 c)))), (arg0 c), rest.
  destruct (del_rec_slots s (arg0 c)) as [D1 D2]. rewrite E1. split_and!; auto.
  - apply store_has_iff, present_slot in Hs. exact Hs.
  - cbn. rewrite E3. reflexivity.
Qed.

(** *** passwd *)
Lemma passwd_exact n m path c w w' : plain_path path -> good_clock w -> run_cmd n m CPasswd path c w = Done tt w' ->
  exists pass new s s', nth_error (wPw w) 0 = Some (Some pass) /\ nth_error (wPw w) 1 = Some (Some new) /\ new <> [] /\
    opens (wFs w) path m pass s /\ opens (wFs w') path m new s' /\
    sVersion s' = sVersion s /\ sRecs s' = sRecs s /\ sTime s' = nth 0 (wClk w) 0.
Proof.
  intros P K H. apply run_cmd_done in H as (La & pass & s & w1 & s1 & w2 & E1 & O & G & Ep & Kw & E2 & E3 & E4 & E5 & R & G1 & Sv & _); [|assumption..].
  destruct (Sv eq_refl) as [Sv1 Snd]. cbn [run] in R. unfold chpass in R. destruct (w_pass w1) as [[new|] w3] eqn:Ew; [|discriminate].
  apply w_pass_eq in Ew as (F1 & F2 & F3 & F4 & F5). destruct (decide _) as [|N]; [discriminate|]. injection R as <- <-.
  cbn [change_password sVersion sRecs sPass] in *. destruct Sv1 as (pass' & s2 & [= <-] & O2 & _ & T).
  exists pass, new, s, s2. rewrite E1, F1. rewrite T.
  - cbn. split_and!; auto; [intros ->; apply N; reflexivity| |rewrite F3, E3; reflexivity].
    rewrite T in O2; [cbn in O2; rewrite F3, E3 in *; exact O2|].
    apply good_text in G. exact G.
  - apply good_text in G. exact G.
Qed.

(** *** merge *)
Lemma merge_cmd_exact n m path c w w' : plain_path path -> good_clock w -> plain_path (arg0 c) -> run_cmd n m CMerge path c w = Done tt w' ->
  exists pass pass2 s o s', nth_error (wPw w) 0 = Some (Some pass) /\ nth_error (wPw w) 1 = Some (Some pass2) /\
    opens (wFs w) path m pass s /\ opens (wFs w) (arg0 c) m pass2 o /\ opens (wFs w') path m pass s' /\
    (no_nil s -> no_nil o -> forall k a b, at_label s k a -> at_label o k b -> forall r, at_label s' k r <-> newest a b r).
Proof.
  intros P K Q H. apply run_cmd_done in H as (La & pass & s & w1 & s1 & w2 & E1 & O & G & Ep & Kw & E2 & E3 & E4 & E5 & R & G1 & Sv & _); [|assumption..].
  destruct (Sv eq_refl) as [Sv1 Snd]. cbn [run] in R. unfold merge_other in R.
  destruct (w_pass w1) as [[pass2|] w3] eqn:Ew; [|discriminate]. pose proof (w_pass_keeps _ _ _ Ew) as Kw3.
  apply w_pass_eq in Ew as (F1 & F2 & F3 & F4 & F5). rewrite w_read_plain in R by exact Q.
  destruct (wFs w3 !! arg0 c) as [d|] eqn:Ef; [|discriminate]. apply then_done in R as (o & w4 & R1 & R2). apply lift_done in R1 as [U ->].
  destruct o as [o|]; [|discriminate]. destruct (w_now w3) as [t w4] eqn:En. apply then_done in R2 as (r & w5 & R2 & R3). injection R3 as <- <-.
  apply lift_done in R2 as [R2 ->]. destruct r as [s1 l1]. cbn [fst] in *.
  assert (good_store s1 /\ sPass s1 = sPass s) as [Gs1 Ps1].
  { unfold store_merge in R2. destruct (merge_loop (map_to_list (recs o)) s []) as [[s0 l0]|] eqn:Em; cbn in R2; [|discriminate]. injection R2 as <- <-. cbn [sPass].
    pose proof (unmarshal_good _ _ _ _ U) as [Go _].
    assert (Forall (fun kv => utf8_text (fst kv) /\ forall r, snd kv = Some r -> good_rec r) (map_to_list (recs o))) as Fo.
    { apply Forall_forall. intros [k v] I. apply elem_of_map_to_list in I. unfold recs in I. destruct Go as (_ & _ & Go).
      destruct (sRecs o) as [mo|]; cbn in I; [|rewrite lookup_empty in I; discriminate]. apply (Go mo eq_refl k v I). }
    revert Em. generalize (map_to_list (recs o)) as l, ([] : list bytes) as acc, Fo. clear - G G1 K Kw Kw3 En. 
    assert (int64 t) as It. { eapply w_now_int64; [|exact En]. eapply keeps_clock; [exact Kw3|]. eapply keeps_clock; eauto. }
    assert (forall l s acc s0 l0, good_store s -> Forall (fun kv => utf8_text (fst kv) /\ forall r, snd kv = Some r -> good_rec r) l ->
      merge_loop l s acc = Ret (s0, l0) -> good_store s0 /\ sPass s0 = sPass s) as A.
    { clear. induction l as [|[k v] l IH]; intros s acc s0 l0 G F; cbn [merge_loop].
      { intros [= <- _]. split; [exact G|reflexivity]. }
      apply Forall_cons in F as [[Fk Fv] F]. cbn in Fk, Fv.
      destruct (match recs s !! k with None => Ret (v, true) | Some r => rec_merge r v end) as [[v' b]|] eqn:Ev; cbn [obind fst snd]; [|discriminate].
      assert (forall r, v' = Some r -> good_rec r) as Gv.
      { destruct (recs s !! k) as [r0|] eqn:Er.
        - unfold rec_merge in Ev. destruct r0 as [a|], v as [b0|]; try discriminate. destruct (decide _); injection Ev as <- <-; intros r [= <-].
          + unfold recs in Er. destruct (sRecs s) as [m0|] eqn:Es; cbn in Er; [|rewrite lookup_empty in Er; discriminate].
            destruct G as (_ & _ & G). specialize (G m0 Es k _ Er) as [_ G]. apply G. reflexivity.
          + eauto.
        - injection Ev as <- <-. exact Fv. }
      destruct (set_rec s k v') as [s1|] eqn:Es; cbn [obind]; [|discriminate].
      apply set_rec_ret in Es as (m0 & Em & ->).
      assert (good_store (SStore (sVersion s) (sTime s) (Some (<[k:=v']> m0)) (sPass s))) as G1.
      { destruct G as (A & B & G). refine (conj A (conj B _)). cbn. intros m' [= <-]. apply map_Forall_insert_2; [split; [exact Fk|exact Gv]|]. apply G. exact Em. }
      destruct b; [destruct v' as [r|]; [|discriminate]|]; intros H; apply IH in H as [H1 H2]; auto. }
    intros l acc Fo Em. destruct (A l s acc s0 l0 G Fo Em) as [A1 A2]. split; [|exact A2].
    destruct A1 as (A11 & A12 & A13). exact (conj A11 (conj It A13)). }
  destruct Sv1 as (pass' & s2 & Ep' & O2 & _ & T). cbn [sPass] in Ep'. rewrite Ps1, Ep in Ep'. injection Ep' as <-.
  rewrite T in O2.
  2:{ apply good_text. destruct Gs1 as (A & B & D). refine (conj A (conj _ D)). cbn. 
      assert (good_clock w4) as K4. { eapply keeps_clock; [eapply w_now_keeps, En|]. eapply keeps_clock; [exact Kw3|]. eapply keeps_clock; eauto. }
      destruct (w_now w4) as [t2 w6] eqn:En2. pose proof (w_now_int64 _ _ _ K4 En2). apply w_now_eq in En2 as [-> _]. assumption. }
  exists pass, pass2, s, o. eexists. rewrite E1, F1. split_and!; [reflexivity|reflexivity|exact O| |exact O2|].
  - exists d. rewrite <- (keeps_fs _ _ (keeps_trans _ _ _ Kw Kw3)). auto.
  - intros N1 N2 k a b Ha Hb r. destruct (merge_exact t (map_to_list (recs o)) s o N1 N2 (Permutation_refl _)) as (sx & ts & Ex & _ & _ & _ & _ & Hx & _).
    rewrite R2 in Ex. injection Ex as <- _. rewrite <- (Hx k a b Ha Hb r). reflexivity.
Qed.

(** *** multi *)
Lemma multi_done n : forall s c w s' w' mm, sRecs s = Some mm -> multi n s c w = Done s' w' ->
  exists names mm', dialogue (wIn w) names (wIn w') /\ entering (cOver c) mm names (wPw w) (wClk w) mm' (wPw w') (wClk w') /\
    s' = SStore (sVersion s) (sTime s) (Some mm') (sPass s).
Proof.
  induction n as [|n IH]; intros s c w s' w' mm Em; cbn [multi]; [discriminate|].
  destruct (w_line w) as [[name|] w1] eqn:E; [|discriminate]. apply w_line_eq in E as (R & E1 & E2 & E3 & _).
  destruct (decide (name = [])) as [->|N].
  { intros [= <- <-]. exists [], mm. rewrite E1, E2. split_and!; [apply dialogue_nil; exact R|constructor|]. destruct s; cbn in *; congruence. }
  assert (recs s !! name = mm !! name) as Er by (unfold recs; rewrite Em; reflexivity).
  assert (forall r, (cOver c = true \/ mm !! name = None) ->
    (r = Some (SRec name 0 None None) /\ mm !! name = None \/ mm !! name = Some r /\ cOver c = true) ->
    match w_pass w1 with
    | (None, w) => Fail w
    | (Some p, w) =>
        if decide (length p = 0%nat) then multi n s c w else
        match r with
        | None => Crash w
        | Some r =>
            let '(now, w) := w_now w in
            let* (s, w) := lift (set_rec s name (Some (SRec (rLabel r) now (Some p) (rMeta r)))) w in
            multi n s c w
        end
    end = Done s' w' ->
    exists names mm', dialogue (wIn w) names (wIn w') /\ entering (cOver c) mm names (wPw w) (wClk w) mm' (wPw w') (wClk w') /\
    s' = SStore (sVersion s) (sTime s) (Some mm') (sPass s)) as A.
  { intros r Ho Hr. destruct (w_pass w1) as [[p|] w2] eqn:Ep; [|discriminate]. apply w_pass_eq in Ep as (F1 & F2 & F3 & _).
    destruct (decide (length p = 0%nat)) as [Z|Z].
    { destruct p; [|discriminate]. intros H. apply (IH _ _ _ _ _ mm Em) in H as (names & mm' & D & T & ->). exists (name :: names), mm'.
      rewrite F2 in D. split_and!; [eapply dialogue_cons; eauto| |reflexivity]. rewrite <- E1, F1, <- E2, <- F3. apply en_empty; assumption. }
    destruct r as [r|]; [|discriminate]. destruct (w_now w2) as [t w3] eqn:En. apply w_now_eq in En as (-> & N1 & N2 & N3 & _).
    intros H. apply then_done in H as (s1 & w4 & H1 & H2). apply lift_done in H1 as [H1 ->]. apply set_rec_ret in H1 as (m1 & Em1 & ->).
    rewrite Em in Em1. injection Em1 as <-. eapply IH in H2 as (names & mm' & D & T & ->); [|reflexivity]. cbn [sVersion sTime sPass].
    exists (name :: names), mm'. rewrite N2, F2 in D.
    split_and!; [eapply dialogue_cons; eauto| |reflexivity]. rewrite <- E1, F1. rewrite <- E2, <- F3.
    assert (p <> []) as Np by (intros ->; apply Z; reflexivity).
    assert (wClk w3 = drop 1 (wClk w2) /\ wPw w3 = wPw w2) as [C1 C2] by auto. rewrite C1, C2 in T.
    destruct Hr as [[[= ->] Hr]|[Hr Ho']]; [eapply en_new|eapply en_over]; eauto. }
  rewrite Er. destruct (mm !! name) as [r|] eqn:Es.
  - destruct (cOver c) eqn:Eo.
    + apply A; auto.
    + intros H. apply (IH _ _ _ _ _ mm Em) in H as (names & mm' & D & T & ->). exists (name :: names), mm'. split_and!; [eapply dialogue_cons; eauto| |reflexivity].
      rewrite <- E1, <- E2. rewrite Eo in T. apply en_exists; [reflexivity|congruence|exact T].
  - apply (A (Some (SRec name 0 None None))); auto.
Qed.
Lemma multi_does ow m names pw ts m' pw' ts' : entering ow m names pw ts m' pw' ts' ->
  forall n s c w i', dialogue (wIn w) names i' -> cOver c = ow -> sRecs s = Some m -> wPw w = pw -> wClk w = ts -> (length names < n)%nat ->
  exists w', multi n s c w = Done (SStore (sVersion s) (sTime s) (Some m') (sPass s)) w' /\ wIn w' = i' /\ wPw w' = pw' /\ wClk w' = ts' /\
    wRng w' = wRng w /\ wFate w' = wFate w /\ wFs w' = wFs w.
Proof.
  induction 1 as [m pw ts|m name names pw ts m' pw' ts' Ho Hm H IH|m name names pw ts m' pw' ts' Ho H IH|m name names p pw ts m' pw' ts' Hm Hp H IH|m name r names p pw ts m' pw' ts' Ho Hm Hp H IH];
    intros n s c w i' D Eo Em Ew Et Ln; (destruct n as [|n]; [cbn in Ln; lia|]); cbn [multi];
    apply dialogue_inv in D as [[E R]|(l1 & ls1 & i1 & E & N & R & D)]; try discriminate; unfold w_line; rewrite R; cbv iota beta.
  - rewrite decide_True by reflexivity. eexists. split; [destruct s; cbn in *; subst; reflexivity|]. cbn. split_and!; auto.
  - injection E as <- <-. rewrite decide_False by exact N. replace (recs s !! name) with (m !! name) by (unfold recs; rewrite Em; reflexivity).
    destruct (m !! name); [|congruence]. rewrite Eo, Ho. cbn in Ln.
    destruct (IH n s c (World (wFs w) i1 (wPw w) (wClk w) (wRng w) (wFate w) (wOut w)) i' D Eo Em Ew Et) as (w' & E & H1); [lia|]. exists w'. split; [exact E|exact H1].
  - injection E as <- <-. rewrite decide_False by exact N. replace (recs s !! name) with (m !! name) by (unfold recs; rewrite Em; reflexivity).
    cbn in Ln. destruct (IH n s c (World (wFs w) i1 pw (wClk w) (wRng w) (wFate w) (wOut w)) i' D Eo Em eq_refl Et) as (w' & E & H1); [lia|].
    exists w'. split; [|exact H1]. unfold w_pass. cbn [wPw]. rewrite Ew. cbn [length]. rewrite decide_True by reflexivity.
    destruct (m !! name); [destruct Ho as [Ho|Ho]; [|discriminate]; rewrite Eo, Ho|]; exact E.
  - injection E as <- <-. rewrite decide_False by exact N. replace (recs s !! name) with (m !! name) by (unfold recs; rewrite Em; reflexivity).
    rewrite Hm. unfold w_pass. cbn [wPw]. rewrite Ew. rewrite decide_False by (destruct p; [congruence|discriminate]). cbn in Ln.
    unfold w_now. cbn [wClk rLabel rMeta]. rewrite Et.
    destruct ts as [|t ts]; cbn [set_rec]; unfold set_rec; rewrite Em; cbn [lift then_ nth drop skipn] in *.
    + destruct (IH n (SStore (sVersion s) (sTime s) (Some (<[name:=Some (SRec name 0 (Some p) None)]> m)) (sPass s)) c (World (wFs w) i1 pw (wClk w) (wRng w) (wFate w) (wOut w)) i' D Eo eq_refl eq_refl Et) as (w' & E & H1); [lia|].
      exists w'. rewrite Et in E. split; [exact E|exact H1].
    + destruct (IH n (SStore (sVersion s) (sTime s) (Some (<[name:=Some (SRec name t (Some p) None)]> m)) (sPass s)) c (World (wFs w) i1 pw ts (wRng w) (wFate w) (wOut w)) i' D Eo eq_refl eq_refl eq_refl) as (w' & E & H1); [lia|].
      exists w'. split; [exact E|exact H1].
  - injection E as <- <-. rewrite decide_False by exact N. replace (recs s !! name) with (m !! name) by (unfold recs; rewrite Em; reflexivity).
    rewrite Hm, Eo, Ho. unfold w_pass. cbn [wPw]. rewrite Ew. rewrite decide_False by (destruct p; [congruence|discriminate]). cbn in Ln.
    unfold w_now. cbn [wClk rLabel rMeta]. rewrite Et.
    destruct ts as [|t ts]; cbn [set_rec]; unfold set_rec; rewrite Em; cbn [lift then_ nth drop skipn] in *.
    + destruct (IH n (SStore (sVersion s) (sTime s) (Some (<[name:=Some (SRec (rLabel r) 0 (Some p) (rMeta r))]> m)) (sPass s)) c (World (wFs w) i1 pw (wClk w) (wRng w) (wFate w) (wOut w)) i' D Eo eq_refl eq_refl Et) as (w' & E & H1); [lia|].
      exists w'. rewrite Et in E. split; [exact E|exact H1].
    + destruct (IH n (SStore (sVersion s) (sTime s) (Some (<[name:=Some (SRec (rLabel r) t (Some p) (rMeta r))]> m)) (sPass s)) c (World (wFs w) i1 pw ts (wRng w) (wFate w) (wOut w)) i' D Eo eq_refl eq_refl eq_refl) as (w' & E & H1); [lia|].
      exists w'. split; [exact E|exact H1].
Qed.

Lemma multi_exact n m path c w w' : plain_path path -> good_clock w -> run_cmd n m CMulti path c w = Done tt w' ->
  exists pass s mm names i' mm' pw' ts', wPw w = Some pass :: tail (wPw w) /\ opens (wFs w) path m pass s /\ sRecs s = Some mm /\
    dialogue (wIn w) names i' /\ entering (cOver c) mm names (tail (wPw w)) (wClk w) mm' pw' ts' /\
    saved (wFs w') path m (SStore (sVersion s) (nth 0 ts' 0) (Some mm') (Some pass)).
Proof.
  intros P K H. apply run_cmd_done in H as (La & pass & s & w1 & s1 & w2 & E1 & O & G & Ep & Kw & E2 & E3 & E4 & E5 & R & G1 & Sv & _); [|assumption..].
  destruct (Sv eq_refl) as [Sv1 Snd]. cbn [run] in R.
  assert (exists mm, sRecs s = Some mm) as [mm Em].
  { destruct Snd as (_ & _ & Sr & _). cbn [sRecs] in Sr. destruct (sRecs s) as [mm|] eqn:Em; [eauto|]. exfalso. apply Sr.
    clear - R Em. revert s s1 w1 w2 Em R. induction n as [|n IH]; intros s s1 w1 w2 Em R; cbn [multi] in R; [discriminate|].
    destruct (w_line w1) as [[name|] w3]; [|discriminate]. destruct (decide (name = [])); [injection R as <- _; exact Em|].
    assert (recs s !! name = None) as Er by (unfold recs; rewrite Em; apply lookup_empty). rewrite Er in R.
    destruct (w_pass w3) as [[p|] w4]; [|discriminate]. destruct (decide (length p = 0%nat)); [eauto|]. destruct (w_now w4) as [t w5].
    unfold set_rec in R. rewrite Em in R. discriminate. }
  apply (multi_done _ _ _ _ _ _ _ Em) in R as (names & mm' & D & T & ->). cbn [sVersion sTime sRecs sPass] in Sv1.
  exists pass, s, mm, names, (wIn w2), mm', (wPw w2), (wClk w2). rewrite E1. cbn [tail]. rewrite E2, E3 in *. rewrite Ep in Sv1. split_and!; auto.
Qed.

Lemma hears_dialogue i ls i1 : Forall (fun l => l <> []) ls -> hears i ls i1 -> forall i2, read_line i1 = (None, i2) -> forall ls' i', ~ dialogue i ls' i'.
Proof.
  intros F H. induction H as [i|i l i1 ls i3 E H IH]; intros i2 R ls' i' D; apply dialogue_inv in D as [[-> R']|(l' & ls1 & i4 & -> & N & R' & D)].
  - congruence.
  - congruence.
  - rewrite E in R'. inversion F. congruence.
  - rewrite E in R'. injection R' as <- <-. inversion F; subst. eapply IH; eauto.
Qed.
(** Input that ends before the empty line: nothing is saved. *)
Lemma multi_cut n m path c w names i1 i2 : plain_path path -> good_clock w ->
  Forall (fun l => l <> []) names -> hears (wIn w) names i1 -> read_line i1 = (None, i2) ->
  (forall w', run_cmd n m CMulti path c w <> Done tt w') /\
  (disk_ok w -> forall w', ends (run_cmd n m CMulti path c w) w' -> wFs w' = wFs w).
Proof.
  intros P K F H R. assert (forall w', run_cmd n m CMulti path c w <> Done tt w') as Nd.
  { intros w' E. apply multi_exact in E as (pass & s & mm & ns & i' & mm' & pw' & ts' & _ & _ & _ & D & _); [|assumption..]. eapply hears_dialogue; eauto. }
  split; [exact Nd|]. intros Dk w' [[[] E]|[E|E]]; [exfalso; eapply Nd, E|eapply run_cmd_fail; left; eauto|eapply run_cmd_fail; right; eauto].
Qed.

(** *** Removing metadata *)
Lemma unmeta_loop_done n : forall md w md' w', unmeta_loop n md w = Done md' w' ->
  exists keys, Forall (fun k => k <> []) keys /\ rehears (wIn w) (keys ++ [[]]) (wIn w') /\
    md' = option_map (fun m => foldl (fun m k => delete k m) m keys) md /\ wPw w' = wPw w /\ wClk w' = wClk w.
Proof.
  induction n as [|n IH]; intros md w md' w'; cbn [unmeta_loop]; [discriminate|].
  destruct (w_line w) as [[key|] w1] eqn:E; apply w_line_eq in E as (R & E1 & E2 & _).
  - destruct (decide (key = [])) as [->|N].
    + intros [= <- <-]. exists []. split_and!; auto; [|destruct md; reflexivity]. cbn. econstructor; [exact R|constructor].
    + intros H. apply IH in H as (keys & F & D & -> & F1 & F2). exists (key :: keys). split_and!; try congruence.
      * constructor; assumption.
      * cbn. econstructor; eauto.
      * destruct md; reflexivity.
  - intros H. apply IH in H as (keys & F & D & -> & F1 & F2). exists keys. split_and!; try congruence. eapply rh_end; eauto.
Qed.
Lemma remove_meta_exact n m path c w w' : plain_path path -> good_clock w -> cMeta c = true -> run_cmd n m CRemove path c w = Done tt w' ->
  exists pass s s' label rest r keys i', head (wPw w) = Some (Some pass) /\ cArgs c = label :: rest /\
    opens (wFs w) path m pass s /\ saved (wFs w') path m s' /\ sPass s' = Some pass /\ sVersion s' = sVersion s /\ same_but label s s' /\
    slot s label = Some (Some r) /\ Forall (fun k => k <> []) keys /\ rehears (wIn w) (keys ++ [[]]) i' /\
    slot s' label = Some (Some (SRec (rLabel r) (nth 0 (wClk w) 0) (rSecret r) (option_map (filter (fun kv => fst kv ∉ keys)) (rMeta r)))).
Proof.
  intros P K M H. apply run_cmd_done in H as (La & pass & s & w1 & s1 & w2 & E1 & O & G & Ep & Kw & E2 & E3 & E4 & E5 & R & G1 & Sv & _); [|assumption..].
  destruct (Sv eq_refl) as [Sv1 Snd]. destruct (arg0_cons c La) as [rest Ea]. cbn [run] in R. unfold remove_secret in R. rewrite M in R. unfold remove_meta in R.
  rewrite <- slot_recs in R. destruct (slot s (arg0 c)) as [[r|]|] eqn:Es; [|discriminate..]. apply then_done in R as (md & w3 & R1 & R2).
  destruct (w_now w3) as [t w4] eqn:En. apply lift_done in R2 as [R2 ->]. apply unmeta_loop_done in R1 as (keys & F & D & -> & F1 & F2).
  apply w_now_eq in En as (-> & _).
  exists pass, s. eexists. exists (arg0 c), rest, r, keys, (wIn w3). rewrite E1, <- E2. split_and!; [reflexivity|exact Ea|exact O|exact Sv1|..].
  - cbn. apply set_rec_slots in R2 as (_ & _ & -> & _). exact Ep.
  - cbn. apply set_rec_slots in R2 as (_ & _ & _ & ->). reflexivity.
  - apply set_rec_slots in R2 as (_ & Sb & _). exact Sb.
  - exact Es.
  - exact F.
  - exact D.
  - apply set_rec_slots in R2 as (R2 & _). etransitivity; [exact R2|]. rewrite F2, E3. do 3 f_equal. destruct (rMeta r) as [md|]; [|reflexivity]. cbn. f_equal.
    clear. revert md. induction keys as [|k keys IH]; intros md; cbn.
    + symmetry. apply map_filter_id. intros k v _ I. inversion I.
    + rewrite IH. apply map_eq. intros k'. apply option_eq. intros v. rewrite !map_filter_lookup_Some, lookup_delete_Some. cbn.
      rewrite elem_of_cons. split; [intros ([N E] & I); split; [exact E|intros [->|]; auto]|intros (E & I); split; [split; [intros ->; apply I; auto|exact E]|auto]].
Qed.
(** Once the input has ended for good without an empty line, no number of rounds
    is enough. *)
Lemma unmeta_loop_spins n : forall md w ls, Forall (fun k => k <> []) ls -> hears (wIn w) ls [] -> unmeta_loop n md w = Spin.
Proof.
  induction n as [|n IH]; intros md w ls F H; cbn [unmeta_loop]; [reflexivity|]. unfold w_line.
  remember (wIn w) as i eqn:Ei. destruct ls as [|l ls]; inversion H as [i0 E0|i0 l0 i1 ls0 i' R H']; subst.
  - rewrite (read_line_end_again [] []) by constructor. apply (IH _ _ []); [constructor|]. constructor.
  - rewrite R. inversion F; subst. rewrite decide_False by assumption. eapply IH; [eassumption|]. exact H'.
Qed.
Lemma remove_meta_spins n m path c w w1 s r ls : load_store path m w = Done s w1 -> cArgs c <> [] -> cMeta c = true -> slot s (arg0 c) = Some (Some r) ->
  Forall (fun k => k <> []) ls -> hears (wIn w1) ls [] -> run_cmd n m CRemove path c w = Spin.
Proof.
  intros E A M S F H. unfold run_cmd. cbn [required]. rewrite decide_False by (destruct (cArgs c); [congruence|cbn; lia]). rewrite E. cbn [then_ run].
  unfold remove_secret. rewrite M. unfold remove_meta. rewrite <- slot_recs, S. rewrite (unmeta_loop_spins _ _ _ _ F H). reflexivity.
Qed.

(** The other dialogues end, whatever the input. *)
Lemma meta_loop_ends n : forall md w, (pending (wIn w) < n)%nat -> meta_loop n md w <> Spin.
Proof.
  induction n as [|n IH]; intros md w Ln; cbn [meta_loop]; [lia|]. destruct (w_line w) as [[line|] w1] eqn:E; [|discriminate].
  apply w_line_eq in E as (R & _). apply read_line_shrinks in R. destruct (decide _); [discriminate|].
  destruct (split_meta line) as [[k v]|]; apply IH; lia.
Qed.
Lemma multi_ends n : forall s c w, (pending (wIn w) < n)%nat -> multi n s c w <> Spin.
Proof.
  induction n as [|n IH]; intros s c w Ln; cbn [multi]; [lia|]. destruct (w_line w) as [[name|] w1] eqn:E; [|discriminate].
  apply w_line_eq in E as (R & _). apply read_line_shrinks in R. destruct (decide _); [discriminate|].
  destruct (match recs s !! name with Some r => if cOver c then Some r else None | None => Some (Some (SRec name 0 None None)) end) as [r|] eqn:Er.
  - assert (match w_pass w1 with
    | (None, w) => Fail w
    | (Some p, w) =>
        if decide (length p = 0%nat) then multi n s c w else
        match r with
        | None => Crash w
        | Some r =>
            let '(now, w) := w_now w in
            let* (s, w) := lift (set_rec s name (Some (SRec (rLabel r) now (Some p) (rMeta r)))) w in
            multi n s c w
        end
    end <> Spin) as A.
    { destruct (w_pass w1) as [[p|] w2] eqn:Ep; [|discriminate]. apply w_pass_eq in Ep as (_ & F2 & _).
      destruct (decide _); [apply IH; rewrite F2; lia|]. destruct r as [r|]; [|discriminate].
      destruct (w_now w2) as [t w3] eqn:En. assert (wIn w3 = wIn w2) as I3 by (apply w_now_eq in En; intuition).
      destruct (set_rec _ _ _) as [s1|]; cbn; [|discriminate]. apply IH. rewrite I3, F2. lia. }
    destruct (recs s !! name) as [r0|]; [destruct (cOver c); [|discriminate]|]; injection Er as <-; exact A.
  - destruct (recs s !! name) as [r0|]; [destruct (cOver c); [discriminate|]|discriminate]. apply IH. lia.
Qed.

(** *** init *)
Lemma go_new t pass : int64 t -> go_store (new_store t pass).
Proof. intros I. refine (conj _ (conj I _)); [unfold int64; change (sVersion (new_store t pass)) with 1; lia|]. cbn. intros mm k r [= <-]. rewrite lookup_empty. discriminate. Qed.
Lemma init_frame path m w w' : good_clock w -> (init_store path m w = Fail w' /\ disk_ok w) \/ init_store path m w = Crash w' -> wFs w' = wFs w.
Proof.
  intros K H. apply keeps_fs. unfold init_store in H. destruct (w_pass w) as [[pass|] w1] eqn:Ep; apply w_pass_keeps in Ep.
  2:{ destruct H as [[H _]|H]; [|discriminate]. injection H as <-. exact Ep. }
  destruct (decide _). { destruct H as [[H _]|H]; [|discriminate]. injection H as <-. exact Ep. }
  assert (good_clock w1) as K1 by (eapply keeps_clock; eauto).
  destruct (w_now w1) as [t w2] eqn:En. pose proof (w_now_int64 _ _ _ K1 En) as It. apply w_now_keeps in En.
  destruct (marshal_exact (new_store t pass) m (wRng w2)) as (_ & ([[[d|] s'] g] & E) & _); rewrite E in H; cbn [lift then_] in H.
  2:{ destruct H as [[H _]|H]; [|discriminate]. injection H as <-. eapply keeps_trans; [exact Ep|]. eapply keeps_trans; [exact En|]. apply set_rng_keeps. }
  destruct (w_write (set_rng w2 g) path d) as [[] w3] eqn:W.
  - destruct (marshal_roundtrip _ _ _ _ _ _ (go_new t pass It) E) as (s2 & U & _). cbn [new_store sPass default] in U.
    unfold default, id in U. rewrite U in H. cbn in H. destruct H as [[H _]|H]; discriminate.
  - destruct H as [[H Dk]|H]; [|discriminate]. injection H as <-. eapply keeps_trans; [exact Ep|]. eapply keeps_trans; [exact En|].
    eapply keeps_trans; [apply (set_rng_keeps w2 g)|]. eapply w_write_fail; [exact W|]. eapply keeps_disk; [apply (set_rng_keeps w2 g)|]. eapply keeps_disk; [exact En|]. eapply keeps_disk; eauto.
Qed.
Lemma init_exact path m w w' : plain_path path -> good_clock w -> init_store path m w = Done tt w' ->
  exists pass, head (wPw w) = Some (Some pass) /\ pass <> [] /\ only_changes path (wFs w) (wFs w') /\
    opens (wFs w') path m pass (SStore 1 (nth 0 (wClk w) 0) (Some ∅) (Some pass)).
Proof.
  intros P K. unfold init_store. destruct (w_pass w) as [[pass|] w1] eqn:Ep; [|discriminate]. pose proof (w_pass_keeps _ _ _ Ep) as K1.
  apply w_pass_eq in Ep as (E1 & E2 & E3 & _). destruct (decide _) as [|N]; [discriminate|]. destruct (w_now w1) as [t w2] eqn:En.
  pose proof (w_now_int64 _ _ _ (keeps_clock _ _ K1 K) En) as It. pose proof (w_now_keeps _ _ _ En) as K2. apply w_now_eq in En as (-> & _).
  destruct (marshal_store (new_store (nth 0 (wClk w1) 0) pass) m (wRng w2)) as [[[[d|] s'] g]|] eqn:E; cbn; [|discriminate|discriminate].
  destruct (w_write (set_rng w2 g) path d) as [[] w3] eqn:W; [|discriminate]. 
  destruct (marshal_roundtrip _ _ _ _ _ _ (go_new _ pass It) E) as (s2 & U & _ & T). cbn [new_store sPass default] in U. unfold default, id in U. rewrite U. cbn.
  intros [= <-]. exists pass. rewrite E1. pose proof (w_write_only _ _ _ _ _ W) as Oc. apply w_write_ok in W; [|exact P]. cbn in W, Oc.
  rewrite (keeps_fs _ _ K2), (keeps_fs _ _ K1) in *. split_and!; auto; [intros ->; apply N; reflexivity|]. exists d. rewrite W, lookup_insert. split; [reflexivity|].
  rewrite U. rewrite T, E3; [reflexivity|]. intros mm k v [= <-]. rewrite lookup_empty. discriminate.
Qed.
(** init does not look whether a store is there: it is replaced by an empty one. *)
Lemma init_replaces path m w pass ps salt nonce g1 g2 : plain_path path -> good_clock w -> disk_ok w -> nth 0 (wClk w) 0 <> 0 -> wPw w = Some pass :: ps -> pass <> [] -> m = 0 \/ m = 1 ->
  length salt = 32%nat -> length nonce = 24%nat -> delivers (wRng w) salt g1 -> delivers g1 nonce g2 ->
  exists w', init_store path m w = Done tt w'.
Proof.
  intros P K Dk Ct Ew N M L1 L2 D1 D2. unfold init_store, w_pass. rewrite Ew. rewrite decide_False by (destruct pass; [congruence|discriminate]).
  set (w1 := World _ _ ps _ _ _ _). destruct (w_now w1) as [t w2] eqn:En. assert (good_clock w1) as K1 by exact K. pose proof (w_now_int64 _ _ _ K1 En) as It.
  pose proof (w_now_keeps _ _ _ En) as K2. assert (wRng w2 = wRng w) as Rg by (apply w_now_eq in En; intuition).
  assert (exists key, mode_key m pass salt key) as [key Km] by (unfold mode_key; destruct M as [-> | ->]; eauto).
  destruct (marshal_exact (new_store t pass) m (wRng w2)) as (Hm & _).
  assert (sound (new_store t pass)) as V by (apply w_now_eq in En as [-> _]; split_and!; cbn; [reflexivity|exact Ct|discriminate|discriminate]).
  rewrite Rg in Hm. destruct (Hm salt nonce g1 g2 key V L1 L2 D1 D2 Km) as (out & cc & s' & E & _). rewrite Rg, E. cbn [lift then_].
  destruct (w_write_succeeds (set_rng w2 g2) path out (proj1 P)) as [w3 W]; [exact (keeps_disk _ _ K2 Dk)|]. rewrite W.
  destruct (marshal_roundtrip _ _ _ _ _ _ (go_new t pass It) E) as (s2 & U & _). cbn [new_store sPass default] in U. unfold default, id in U. rewrite U. cbn. eauto.
Qed.

(** *** export and import *)
Lemma export_frame path out w w' : (export_store path out w = Fail w' /\ disk_ok w) \/ export_store path out w = Crash w' -> wFs w' = wFs w.
Proof.
  intros H. apply keeps_fs. unfold export_store in H. destruct (w_read w path) as [[d|] w1] eqn:E; apply w_read_keeps in E.
  - destruct (w_write w1 out _) as [[] w2] eqn:W; destruct H as [[H Dk]|H]; try discriminate. injection H as <-.
    eapply keeps_trans; [exact E|]. eapply w_write_fail; [exact W|]. eapply keeps_disk; eauto.
  - destruct H as [[H _]|H]; [|discriminate]. injection H as <-. exact E.
Qed.
Lemma export_only path out w w' : ends (export_store path out w) w' -> only_changes out (wFs w) (wFs w').
Proof.
  intros E. apply ends_iff in E. unfold export_store in E. destruct (w_read w path) as [[d|] w1] eqn:Er; apply w_read_keeps, keeps_fs in Er.
  - destruct (w_write w1 out _) as [ok w2] eqn:W. apply w_write_only in W. rewrite Er in W. destruct ok; injection E as <-; exact W.
  - injection E as <-. intros q _. rewrite Er. reflexivity.
Qed.
Lemma import_frame path inp w w' : (import_store path inp w = Fail w' /\ disk_ok w) \/ import_store path inp w = Crash w' -> wFs w' = wFs w.
Proof.
  intros H. apply keeps_fs. unfold import_store in H. destruct (w_read w inp) as [[d|] w1] eqn:E; apply w_read_keeps in E.
  - destruct (pem_decode d) as [[ty b]|].
    + destruct (decide (ty = pemType)).
      * destruct (w_write w1 path b) as [[] w2] eqn:W; destruct H as [[H Dk]|H]; try discriminate. injection H as <-.
        eapply keeps_trans; [exact E|]. eapply w_write_fail; [exact W|]. eapply keeps_disk; eauto.
      * destruct H as [[H _]|H]; [|discriminate]. injection H as <-. exact E.
    + destruct H as [[H _]|H]; [|discriminate]. injection H as <-. exact E.
  - destruct H as [[H _]|H]; [|discriminate]. injection H as <-. exact E.
Qed.
Lemma import_only path inp w w' : ends (import_store path inp w) w' -> only_changes path (wFs w) (wFs w').
Proof.
  intros E. apply ends_iff in E. unfold import_store in E. destruct (w_read w inp) as [[d|] w1] eqn:Er; apply w_read_keeps, keeps_fs in Er.
  - destruct (pem_decode d) as [[ty b]|]; [destruct (decide (ty = pemType))|].
    + destruct (w_write w1 path b) as [ok w2] eqn:W. apply w_write_only in W. rewrite Er in W. destruct ok; injection E as <-; exact W.
    + injection E as <-. intros q _. rewrite Er. reflexivity.
    + injection E as <-. intros q _. rewrite Er. reflexivity.
  - injection E as <-. intros q _. rewrite Er. reflexivity.
Qed.
Lemma export_import path out path2 w d : plain_path path -> plain_path out -> plain_path path2 -> disk_ok w -> wFs w !! path = Some d ->
  exists w1 w2, export_store path out w = Done tt w1 /\ import_store path2 out w1 = Done tt w2 /\
    wFs w2 !! path2 = Some d /\ (forall q, q <> path2 -> q <> out -> wFs w2 !! q = wFs w !! q).
Proof.
  intros P Q P2 Dk E. unfold export_store. rewrite w_read_plain by exact P. rewrite E.
  destruct (w_write_succeeds w out (pem_encode pemType [] d) (proj1 Q) Dk) as [w1 W]. rewrite W. exists w1.
  assert (disk_ok w1) as D1.
  { unfold w_write in W. rewrite decide_False in W by apply Q. unfold w_raw_write in W. rewrite decide_False in W by apply Q. unfold disk_ok in *.
    destruct (wFate w) as [|x l]; [destruct (write_file _ _ _ _); injection W as _ <-; constructor|]. inversion Dk; subst. destruct (write_file _ _ _ _); injection W as _ <-. assumption. }
  apply w_write_ok in W; [|exact Q]. unfold import_store. rewrite w_read_plain by exact Q. rewrite W, lookup_insert.
  pose proof (pem_roundtrip pemType [] d []) as Pr. rewrite app_nil_r in Pr. rewrite Pr.
  2:{ split; intros I; repeat (apply elem_of_cons in I as [I|I]; [discriminate I|]); inversion I. }
  2:{ constructor. }
  rewrite decide_True by reflexivity. destruct (w_write_succeeds w1 path2 d (proj1 P2) D1) as [w2 W2]. rewrite W2. exists w2. apply w_write_ok in W2; [|exact P2].
  split_and!; auto; rewrite W2, ?W; [apply lookup_insert|]. intros q N1 N2. rewrite !lookup_insert_ne by congruence. reflexivity.
Qed.
Lemma import_refuses path inp w d : plain_path inp -> wFs w !! inp = Some d ->
  (pem_decode d = None \/ exists ty b, pem_decode d = Some (ty, b) /\ ty <> bs "SECRET STORE") ->
  import_store path inp w = Fail w.
Proof.
  intros P E H. unfold import_store. rewrite w_read_plain by exact P. rewrite E. destruct H as [-> |(ty & b & -> & N)]; [reflexivity|].
  rewrite decide_False; [reflexivity|]. exact N.
Qed.

(** *** The command as a whole *)
Lemma main_read_only n m fl path c w w' : fInit fl = false -> fChPass fl = false -> fStore fl = false -> fRemove fl = false -> fMulti fl = false -> fMerge fl = false ->
  fExport fl = false -> fImport fl = false -> ends (secrets_main n m fl path c w) w' -> wFs w' = wFs w.
Proof.
  intros E1 E2 E3 E4 E5 E6 E7 E8. unfold secrets_main. rewrite E1, E2, E3, E4, E5, E6, E7, E8. destruct (fList fl); apply run_cmd_read_only; reflexivity.
Qed.
Lemma main_fail n m fl path c w w' : good_clock w ->
  (secrets_main n m fl path c w = Fail w' /\ disk_ok w) \/ secrets_main n m fl path c w = Crash w' -> wFs w' = wFs w.
Proof.
  intros K. unfold secrets_main. destruct (fInit fl); [apply init_frame; exact K|].
  destruct (fChPass fl); [apply run_cmd_fail|]. destruct (fStore fl); [apply run_cmd_fail|]. destruct (fRemove fl); [apply run_cmd_fail|].
  destruct (fList fl); [apply run_cmd_fail|]. destruct (fMulti fl); [apply run_cmd_fail|]. destruct (fMerge fl); [apply run_cmd_fail|].
  destruct (fExport fl); [apply export_frame|]. destruct (fImport fl); [apply import_frame|]. apply run_cmd_fail.
Qed.
Lemma init_only path m w w' : ends (init_store path m w) w' -> only_changes path (wFs w) (wFs w').
Proof.
  intros E. apply ends_iff in E. unfold init_store in E. destruct (w_pass w) as [[pass|] w1] eqn:Ep; apply w_pass_keeps, keeps_fs in Ep.
  2:{ injection E as <-. intros q _. rewrite Ep. reflexivity. }
  destruct (decide _). { injection E as <-. intros q _. rewrite Ep. reflexivity. }
  destruct (w_now w1) as [t w2] eqn:En. apply w_now_keeps, keeps_fs in En.
  destruct (marshal_store _ _ _) as [[[[d|] s'] g]|]; cbn in E.
  - destruct (w_write (set_rng w2 g) path d) as [[] w3] eqn:W; apply w_write_only in W; cbn in W; rewrite En, Ep in W.
    + destruct (unmarshal_store d pass m) as [[s2|]|]; cbn in E; injection E as <-; exact W.
    + injection E as <-. exact W.
  - injection E as <-. intros q _. cbn. congruence.
  - injection E as <-. intros q _. congruence.
Qed.
Lemma main_only n m fl path c w w' : fExport fl = false -> ends (secrets_main n m fl path c w) w' -> only_changes path (wFs w) (wFs w').
Proof.
  intros X. unfold secrets_main. rewrite X. destruct (fInit fl); [apply init_only|].
  destruct (fChPass fl); [apply run_cmd_only|]. destruct (fStore fl); [apply run_cmd_only|]. destruct (fRemove fl); [apply run_cmd_only|].
  destruct (fList fl); [apply run_cmd_only|]. destruct (fMulti fl); [apply run_cmd_only|]. destruct (fMerge fl); [apply run_cmd_only|].
  destruct (fImport fl); [apply import_only|]. apply run_cmd_only.
Qed.

(** *** show *)
Lemma show_exact n m path c w w' : plain_path path -> good_clock w -> run_cmd n m CShow path c w = Done tt w' ->
  exists pass s label rest r, head (wPw w) = Some (Some pass) /\ cArgs c = label :: rest /\ opens (wFs w) path m pass s /\ slot s label = Some (Some r) /\
    wOut w' = wOut w ++ (if cClip c then default [] (rSecret r) else bs "Secret: " ++ default [] (rSecret r) ++ [x0a]) /\ wFs w' = wFs w.
Proof.
  intros P K H. assert (wFs w' = wFs w) as Ef by (eapply run_cmd_read_only; [|left; eauto]; reflexivity).
  apply run_cmd_done in H as (La & pass & s & w1 & s1 & w2 & E1 & O & G & Ep & Kw & E2 & E3 & E4 & E5 & R & G1 & _ & Sv); [|assumption..].
  specialize (Sv eq_refl) as ->. destruct (arg0_cons c La) as [rest Ea]. cbn [run] in R. unfold show_secret in R. rewrite <- slot_recs in R.
  destruct (slot s (arg0 c)) as [[r|]|] eqn:Es; [|discriminate..]. injection R as <- <-. exists pass, s, (arg0 c), rest, r. rewrite E1. split_and!; auto.
  cbn [w_print wOut]. rewrite E5. reflexivity.
Qed.

(** *** Nothing stops a run that should succeed *)
Lemma store_new_succeeds n m path c w label rest pass p ps s salt nonce g1 g2 : plain_path path -> good_clock w -> disk_ok w -> nth 1 (wClk w) 0 <> 0 -> m = 0 \/ m = 1 ->
  cArgs c = label :: rest -> cMeta c = false -> wPw w = Some pass :: Some p :: ps -> p <> [] -> opens (wFs w) path m pass s -> sound s ->
  (slot s label = None \/ (cOver c = true /\ exists r, slot s label = Some (Some r))) ->
  length salt = 32%nat -> length nonce = 24%nat -> delivers (wRng w) salt g1 -> delivers g1 nonce g2 ->
  exists w', run_cmd n m CStore path c w = Done tt w'.
Proof.
  intros P K Dk Ct M Ea Cm Ew Np O V Sl L1 L2 D1 D2. unfold run_cmd. cbn [required]. rewrite Ea. rewrite decide_False by (cbn; lia).
  destruct (load_store_opens _ _ _ _ _ _ P Ew O) as (w1 & El & Pw). pose proof (load_store_done _ _ _ _ _ P El) as (pass' & F1 & _ & _ & Fp & Kw & F2 & F3 & F4 & F5).
  rewrite El. cbn [then_ run]. unfold add_secret. rewrite Cm. destruct V as (V1 & V2 & V3 & V4). destruct (sRecs s) as [mm|] eqn:Em; [|congruence].
  assert (exists r2 w2, add_plain s c w1 = Done (SStore (sVersion s) (sTime s) (Some (<[label := r2]> mm)) (sPass s)) w2 /\ keeps w1 w2 /\ wRng w2 = wRng w1 /\ wClk w2 = drop 1 (wClk w1)) as (r2 & w2 & Ed & K2 & Rg & Ck).
  { pose proof (add_plain_frame s c w1) as Fr. unfold add_plain in *. rewrite <- slot_recs in *. unfold arg0 in *. rewrite Ea in *. cbn [nth] in *.
    assert (forall r, exists r2 w2, match w_pass w1 with
    | (None, w) => Fail w
    | (Some p, w) =>
        if decide (length p = 0%nat) then Fail w else
        match Some r with
        | None => Crash w
        | Some r => let '(now, w) := w_now w in lift (set_rec s label (Some (SRec (rLabel r) now (Some p) (rMeta r)))) w
        end
    end = Done (SStore (sVersion s) (sTime s) (Some (<[label := r2]> mm)) (sPass s)) w2 /\ wRng w2 = wRng w1 /\ wClk w2 = drop 1 (wClk w1)) as A.
    { intros r. unfold w_pass. rewrite Pw. rewrite decide_False by (destruct p; [congruence|discriminate]).
      set (w3 := World _ _ ps _ _ _ _). destruct (w_now w3) as [t w4] eqn:En. unfold set_rec. rewrite Em. cbn [lift]. do 2 eexists. split; [reflexivity|].
      apply w_now_eq in En. intuition. }
    destruct Sl as [Sl|(Co & r & Sl)]; rewrite Sl in *; [|rewrite Co in *].
    - destruct (A (SRec label 0 None None)) as (r2 & w2 & E & Rg). exists r2, w2. refine (conj E (conj _ Rg)). apply Fr. cbn [rLabel rMeta] in *. rewrite E. reflexivity.
    - destruct (A r) as (r2 & w2 & E & Rg). exists r2, w2. refine (conj E (conj _ Rg)). apply Fr. rewrite E. reflexivity. }
  rewrite Ed. cbn [then_ should_write]. destruct (w_now w2) as [t w3] eqn:En. pose proof (w_now_keeps _ _ _ En) as K3.
  assert (wRng w3 = wRng w) as Rg3 by (apply w_now_eq in En; destruct En as (_ & _ & _ & _ & ? & _); congruence).
  eapply write_store_succeeds with (salt := salt) (nonce := nonce); eauto.
  - apply P.
  - eapply keeps_disk; [exact K3|]. eapply keeps_disk; [exact K2|]. eapply keeps_disk; eauto.
  - apply w_now_eq in En as [-> _]. split_and!; cbn; try assumption; [|congruence]. rewrite Ck, F3. destruct (wClk w) as [|? [|? ?]]; exact Ct.
  - rewrite Rg3. exact D1.
Qed.
End WithCrypto.

(** What clients of the key server see, and what reaches its file. *)
From Verif Require Export KeySrvRuns.
Local Open Scope Z_scope.

Section WithCrypto.
Context {C : Crypto} {L : CryptoLaws}.

Lemma runs_app path v tr v1 tr' v2 : runs path v tr v1 -> runs path v1 tr' v2 -> runs path v (tr ++ tr') v2.
Proof.
  intros R R'. induction R' as [v1|v1 tr' v2 e v3 R' IH St]; [rewrite app_nil_r; exact R|]. rewrite app_assoc. econstructor; eauto.
Qed.
Lemma runs_one path v e v' : step path v e v' -> runs path v [(vNow v, e)] v'.
Proof. intros St. change [(vNow v, e)] with ([] ++ [(vNow v, e)]). econstructor; [constructor|exact St]. Qed.
Lemma own_in i tr e : e ∈ own i tr <-> concerns i e = true /\ exists t, (t, e) ∈ tr.
Proof.
  unfold own. rewrite elem_of_list_omap. split.
  - intros ([t x] & H & E). cbn in E. destruct (concerns i x) eqn:A; [|discriminate E]. injection E as <-. eauto.
  - intros (A & t & H). exists (t, e). cbn. rewrite A. auto.
Qed.
Lemma dones_in tr x : x ∈ dones tr <-> exists t, (t, EDone (fst (fst x)) (snd (fst x)) (snd x)) ∈ tr.
Proof.
  destruct x as [[w c] r]. cbn [fst snd]. unfold dones. rewrite elem_of_list_omap. split.
  - intros ([t e] & H & E). cbn in E. destruct e; try discriminate E. injection E as -> -> ->. eauto.
  - intros [t H]. exists (t, EDone w c r). auto.
Qed.

(** *** C66 *)
Lemma srv_serial path ks0 f now tr v : built ks0 -> runs path (serving ks0 f now) tr v -> serial ks0 (dones tr) (vKs v).
Proof. intros B R. exact (si_serial _ _ _ (sinv_runs _ _ _ _ _ _ B R)). Qed.
Lemma srv_life path ks0 f now tr v i : built ks0 -> runs path (serving ks0 f now) tr v ->
  (exists e, own i tr = [EArrive i (BadBody e)]) \/ exists q c r, command_of q = Some c /\ own i tr `prefix_of` life i q c r.
Proof.
  intros B R. pose proof (si_client _ _ _ (sinv_runs _ _ _ _ _ _ B R) i) as H. unfold client_ok in H.
  destruct (vClients v !! i) as [[q [c|[r|]|a]]|].
  - destruct H as (-> & Hc & _). right. exists q, c, (Resp None None). split; [exact Hc|]. eexists. reflexivity.
  - destruct H as (_ & c & Hc & ->). right. exists q, c, r. split; [exact Hc|]. eexists. reflexivity.
  - destruct H as (c & Hc & [[-> _]|[[-> _]|(r & -> & _)]]); right.
    + exists q, c, (Resp None None). split; [exact Hc|]. eexists. reflexivity.
    + exists q, c, (Resp None None). split; [exact Hc|]. eexists. reflexivity.
    + exists q, c, r. split; [exact Hc|]. eexists. reflexivity.
  - destruct H as (_ & [(e & -> & _ & ->)|(c & r & Hc & _ & ->)]); [left; eauto|]. right. exists q, c, r. split; [exact Hc|]. reflexivity.
  - destruct H as [-> _]. right. exists GetServer, (Cmd Public (bs "self") []), (Resp None None). split; [reflexivity|]. eexists. reflexivity.
Qed.
Lemma srv_answer path ks0 f now tr v i t a : built ks0 -> runs path (serving ks0 f now) tr v -> (t, EAnswer i a) ∈ tr ->
  exists q c r, command_of q = Some c /\ a = answer q r /\ own i tr = life i q c r /\ (Client i, c, r) ∈ dones tr.
Proof.
  intros B R H. assert (EAnswer i a ∈ own i tr) as Ho.
  { apply own_in. split; [cbn; apply bool_decide_eq_true_2; reflexivity|eauto]. }
  destruct (srv_life path ks0 f now tr v i B R) as [[e E]|(q & c & r & Hc & [k E])].
  { rewrite E in Ho. apply elem_of_list_singleton in Ho. discriminate Ho. }
  assert (k = []) as ->.
  { destruct k as [|x k]; [reflexivity|exfalso]. unfold life in E.
    destruct (own i tr) as [|x1 [|x2 [|x3 [|x4 [|x5 [|x6 l]]]]]]; cbn in E; simplify_eq; try (destruct l; discriminate);
      repeat (apply elem_of_cons in Ho as [Ho|Ho]; [discriminate Ho|]); apply elem_of_nil in Ho as []. }
  rewrite app_nil_r in E. exists q, c, r. split; [exact Hc|].
  assert (a = answer q r) as ->.
  { rewrite <- E in Ho. unfold life in Ho. repeat (apply elem_of_cons in Ho as [Ho|Ho]; [congruence|]). apply elem_of_nil in Ho as []. }
  split; [reflexivity|]. split; [symmetry; exact E|]. apply dones_in. cbn [fst snd].
  apply (own_in i tr). rewrite <- E. do 3 right. left.
Qed.
Lemma srv_fifo path ks0 f now tr v : built ks0 -> runs path (serving ks0 f now) tr v ->
  exists waiting, sends tr = map (fun x => fst (fst x)) (dones tr) ++ waiting /\ (length waiting <= 17)%nat.
Proof.
  intros B R. pose proof (sinv_runs _ _ _ _ _ _ B R) as I. exists (undone (vDisp v) ++ map fst (vQueue v)). split.
  - rewrite (si_sends _ _ _ I), (si_recvs _ _ _ I), <- app_assoc. reflexivity.
  - rewrite app_length, map_length. pose proof (si_room _ _ _ I) as H. unfold room in H. destruct (vDisp v); cbn [undone length]; lia.
Qed.
Lemma srv_never_exits path ks0 f now tr v : built ks0 -> runs path (serving ks0 f now) tr v -> forall t, (t, EExit) ∉ tr.
Proof.
  intros B R. remember (serving ks0 f now) as v0 eqn:E0. induction R as [v|v tr v1 e v2 R IH St]; subst; intros t H; [apply elem_of_nil in H as []|].
  pose proof (sinv_runs _ _ _ _ _ _ B R) as I.
  apply elem_of_app in H as [H|H]; [exact (IH eq_refl t H)|]. apply elem_of_list_singleton in H. injection H as _ <-.
  inversion St as [| | | | |v0 w c ch U D F Pr| | | | |v0 r e U A Er| | | | | | | |]; subst.
  - exact (process_no_panic _ _ _ _ (si_built _ _ _ I) F Pr).
  - rewrite (si_auda _ _ _ I _ A) in Er. discriminate Er.
Qed.

(** *** C67 *)
Lemma serial_keeps s l s' : serial s l s' -> ksPub s' = ksPub s /\ ksPriv s' = ksPriv s /\ ksExport s' = ksExport s /\
  (forall k r, krecord s k r -> krecord s' k r) /\
  (forall k r, krecord s' k r -> krecord s k r \/ exists w d v, (w, Cmd Upload k d, Resp (Some (bs "public key added successfully")) None) ∈ l /\
     parse_verified_key d = Some v /\ subject r = vPublic v /\ signer r = vSigner v /\ signature r = vSig v /\ krSigTime r = vTime v).
Proof.
  induction 1 as [s|s l s1 w c r s2 H (I1 & I2 & I3 & I4 & I5) Sv]; [split_and!; auto|].
  assert (s2 = s1 \/ exists k d v now, c = Cmd Upload k d /\ r = Resp (Some (bs "public key added successfully")) None /\
    parse_verified_key d = Some v /\ importable s1 k v /\
    added s1 k (KRec k 1 now (Some (vPublic v)) (Some (vSig v)) (Some (vSigner v)) (vTime v) None) s2) as [-> |(k & d & v & n & -> & -> & Pv & Im & A)].
  { inversion Sv; subst; auto. right. eauto 10. }
  - split_and!; auto. intros k x K. destruct (I5 k x K) as [X|(w' & d & v & X & Y)]; [auto|]. right. exists w', d, v. split; [|exact Y].
    apply elem_of_app. left. exact X.
  - assert (~ kpresent s1 k) as NP by (destruct Im as (_ & _ & NP & _); exact NP).
    destruct A as (m & E & E2). assert (added s1 k (KRec k 1 n (Some (vPublic v)) (Some (vSig v)) (Some (vSigner v)) (vTime v) None) s2) as A by (exists m; auto).
    split; [rewrite E2; exact I1|]. split; [rewrite E2; exact I2|]. split; [rewrite E2; exact I3|]. split.
    + intros k' x K. apply I4 in K. apply (added_record _ _ _ _ _ _ A). right. split; [|exact K]. intros ->. apply NP.
      destruct K as (m' & E' & K). exists m', (Some x). auto.
    + intros k' x K. apply (added_record _ _ _ _ _ _ A) in K as [[-> ->]|[_ K]].
      * right. exists w, d, v. split; [apply elem_of_app; right; apply elem_of_list_singleton; reflexivity|]. split_and!; auto.
      * destruct (I5 k' x K) as [X|(w' & d' & v' & X & Y)]; [auto|]. right. exists w', d', v'. split; [|exact Y]. apply elem_of_app. left. exact X.
Qed.
Lemma srv_keeps path ks0 f now tr v : built ks0 -> runs path (serving ks0 f now) tr v ->
  ksPub (vKs v) = ksPub ks0 /\ ksPriv (vKs v) = ksPriv ks0 /\ ksExport (vKs v) = ksExport ks0 /\
  (forall k r, krecord ks0 k r -> krecord (vKs v) k r) /\
  (forall k r, krecord (vKs v) k r -> krecord ks0 k r \/ exists w d c,
     (w, Cmd Upload k d, Resp (Some (bs "public key added successfully")) None) ∈ dones tr /\
     parse_verified_key d = Some c /\ subject r = vPublic c /\ signer r = vSigner c /\ signature r = vSig c /\ krSigTime r = vTime c).
Proof. intros B R. apply serial_keeps. exact (srv_serial _ _ _ _ _ _ B R). Qed.

(** The file and the clock. *)
Record finv (path : bytes) (ks0 : kstore) (f : fs) (t0 : Z) (tr : trace) (v : server) : Prop := {
  fi_now : t0 <= vNow v;
  fi_past : forall t e, (t, e) ∈ tr -> t <= vNow v;
  fi_timer : forall t, vDisp v = DSelect t -> t0 + 600 <= t /\ forall t' e, (t', e) ∈ tr -> dealing e -> t' + 600 <= t;
  fi_dumps : forall p t q, tr = p ++ (t, EDump) :: q -> t0 + 600 <= t /\ forall t' e, (t', e) ∈ p -> dealing e -> t' + 600 <= t;
  fi_other : forall p, p <> path -> vFs v !! p = f !! p;
  fi_same : (forall t, (t, EDump) ∉ tr) -> vFs v = f /\ forall d n, vDisp v <> DWrite d n;
  fi_write : forall d n, vDisp v = DWrite d n -> d = ks_dump (vKs v) /\ (n <= length d)%nat /\ vFs v !! path = Some (take n d) /\
    exists p t q, tr = p ++ (t, EDump) :: q /\ (forall t', (t', EDump) ∉ q) /\ serial ks0 (dones p) (vKs v);
  fi_file : (forall t, (t, EDump) ∉ tr) \/ exists p t q s n, tr = p ++ (t, EDump) :: q /\ (forall t', (t', EDump) ∉ q) /\
    serial ks0 (dones p) s /\ vFs v !! path = Some (take n (ks_dump s))
}.
Lemma snoc_split {A} (tr p q : list A) x y : tr ++ [x] = p ++ y :: q -> (q = [] /\ p = tr /\ y = x) \/ exists q', q = q' ++ [x] /\ tr = p ++ y :: q'.
Proof.
  intros E. destruct q as [|z q _] using rev_ind.
  - left. apply app_inj_tail in E as [-> ->]. auto.
  - right. rewrite app_comm_cons, app_assoc in E. apply app_inj_tail in E as [-> ->]. eauto.
Qed.
Lemma step_now path v e v' : step path v e v' -> vNow v <= vNow v'.
Proof. intros St. destruct St; cbn; try lia; destruct w as [i|]; cbn; [destruct (vClients v !! i) as [[q [c|[r'|]|a]]|]|destruct (vAud v) as [|[r'|]|]]; cbn; lia. Qed.
Lemma deliver_same v w r : vFs (deliver v w r) = vFs v /\ vKs (deliver v w r) = vKs v.
Proof. destruct w as [i|]; cbn; [destruct (vClients v !! i) as [[q [c|[r'|]|a]]|]|destruct (vAud v) as [|[r'|]|]]; auto. Qed.
(** How one step moves the dispatcher and the file. *)
Lemma step_disp path v e v' : step path v e v' ->
  (vDisp v' = vDisp v /\ vFs v' = vFs v /\ vKs v' = vKs v /\ ~ dealing e /\ e <> EDump) \/
  (dealing e /\ vFs v' = vFs v /\ (forall t, vDisp v' = DSelect t -> t = vNow v + 600) /\ forall d n, vDisp v' <> DWrite d n) \/
  (exists t, vDisp v = DSelect t /\ t <= vNow v /\ e = EDump /\ vDisp v' = DWrite (ks_dump (vKs v)) 0 /\ vFs v' = <[path := []]> (vFs v) /\ vKs v' = vKs v) \/
  (exists d n, vDisp v = DWrite d n /\ (n < length d)%nat /\ e = EByte /\ vDisp v' = DWrite d (S n) /\ vFs v' = <[path := take (S n) d]> (vFs v) /\ vKs v' = vKs v) \/
  (e = EHang /\ vFs v' = vFs v /\ vKs v' = vKs v /\ exists w, vDisp v' = DHang w).
Proof.
  intros St. destruct St as [v i q U N|v i q c U N Hr|v U N Hr|v t w c l U D Q|v w c ch r s U D F Pr|v w c ch U D F Pr|v w c ch U D F Pr
    |v w r U D|v i q r U N|v r U A Er|v r e U A Er|v t U A T|v t U T|v t U D T|v t U D T|v d n U D Hn|v d U D|v d n U D|v U];
    try (left; split_and!; [reflexivity..|intros []|discriminate]).
  - right. left. split_and!; [exact I|reflexivity|discriminate|discriminate].
  - right. left. split_and!; [exact I|reflexivity|discriminate|discriminate].
  - right. right. right. right. split_and!; eauto.
  - right. left. split; [exact I|]. split; [apply (deliver_same v w r)|]. split; [intros t [= <-]; reflexivity|discriminate].
  - right. right. left. exists t. split_and!; auto.
  - right. left. split; [exact I|]. split; [reflexivity|]. split; [intros t' [= <-]; reflexivity|discriminate].
  - right. right. right. left. exists d, n. split_and!; auto.
  - right. left. split; [exact I|]. split; [reflexivity|]. split; [intros t' [= <-]; reflexivity|discriminate].
  - right. left. split; [exact I|]. split; [reflexivity|]. split; [intros t' [= <-]; reflexivity|discriminate].
Qed.
Lemma finv_step path ks0 f t0 tr v e v' : serial ks0 (dones tr) (vKs v) -> finv path ks0 f t0 tr v -> step path v e v' ->
  finv path ks0 f t0 (tr ++ [(vNow v, e)]) v'.
Proof.
  intros Se [F1 F2 F3 F4 F5 F6 F7 F8] St. pose proof (step_now _ _ _ _ St) as Hn. pose proof (step_disp _ _ _ _ St) as Hd. clear St.
  assert (forall t e', (t, e') ∈ tr ++ [(vNow v, e)] -> t <= vNow v) as Past.
  { intros t e' H. apply elem_of_app in H as [H|H]; [eauto|]. apply elem_of_list_singleton in H. injection H as -> _. lia. }
  assert (e <> EDump -> (forall t, (t, EDump) ∉ tr ++ [(vNow v, e)]) <-> (forall t, (t, EDump) ∉ tr)) as NoD.
  { intros Ne. split; intros H t Ht; apply (H t); [apply elem_of_app; left; exact Ht|].
    apply elem_of_app in Ht as [Ht|Ht]; [exact Ht|]. apply elem_of_list_singleton in Ht. congruence. }
  assert (e <> EDump -> vFs v' !! path = vFs v !! path -> (forall t, (t, EDump) ∉ tr ++ [(vNow v, e)]) \/
    exists p t q s n, tr ++ [(vNow v, e)] = p ++ (t, EDump) :: q /\ (forall t', (t', EDump) ∉ q) /\ serial ks0 (dones p) s /\ vFs v' !! path = Some (take n (ks_dump s))) as File.
  { intros Ne Ef. destruct F8 as [F8|(p & t & q & s & n & -> & Hq & Hs & Hf)]; [left; apply NoD; assumption|].
    right. exists p, t, (q ++ [(vNow v, e)]), s, n. split; [rewrite <- app_assoc; reflexivity|]. split; [|split; [exact Hs|congruence]].
    intros t' H. apply elem_of_app in H as [H|H]; [eapply Hq; eauto|]. apply elem_of_list_singleton in H. congruence. }
  assert (e <> EDump -> forall p t q, tr ++ [(vNow v, e)] = p ++ (t, EDump) :: q -> t0 + 600 <= t /\ forall t' e', (t', e') ∈ p -> dealing e' -> t' + 600 <= t) as Dumps.
  { intros Ne p t q E. apply snoc_split in E as [(_ & _ & E)|(q' & _ & E)]; [congruence|]. eapply F4; eauto. }
  destruct Hd as [(D & Ff & K & Nd & Ne)|[(De & Ff & Dt & Dw)|[(t & D & Ht & -> & D' & Ff & K)|[(d & n & D & Hl & -> & D' & Ff & K)|(-> & Ff & K & w & D')]]]].
  - constructor; [lia| | |apply Dumps; exact Ne| | | |].
    + intros t' e' H. specialize (Past _ _ H). lia.
    + intros t' E. rewrite D in E. destruct (F3 _ E) as [A B]. split; [exact A|]. intros t1 e1 H De.
      apply elem_of_app in H as [H|H]; [eauto|]. apply elem_of_list_singleton in H. injection H as _ ->. contradiction.
    + intros p Hp. rewrite Ff. auto.
    + intros H. rewrite Ff, D. apply F6. apply NoD; assumption.
    + intros d n E. rewrite K, Ff. rewrite D in E. destruct (F7 _ _ E) as (X1 & X2 & X3 & p & t & q & -> & Hq & Hs). split_and!; auto.
      exists p, t, (q ++ [(vNow v, e)]). split; [rewrite <- app_assoc; reflexivity|]. split; [|exact Hs].
      intros t' H. apply elem_of_app in H as [H|H]; [eapply Hq; eauto|]. apply elem_of_list_singleton in H. congruence.
    + apply File; [exact Ne|rewrite Ff; reflexivity].
  - assert (e <> EDump) as Ne by (intros ->; exact De). constructor; [lia| | |apply Dumps; exact Ne| | | |].
    + intros t' e' H. specialize (Past _ _ H). lia.
    + intros t' E. apply Dt in E as ->. split; [lia|]. intros t1 e1 H _. specialize (Past _ _ H). lia.
    + intros p Hp. rewrite Ff. auto.
    + intros H. rewrite Ff. split; [apply F6; apply NoD; assumption|exact Dw].
    + intros d n E. exfalso. exact (Dw _ _ E).
    + apply File; [exact Ne|rewrite Ff; reflexivity].
  - destruct (F3 _ D) as [A B]. constructor.
    + lia.
    + intros t' e' H. specialize (Past _ _ H). lia.
    + rewrite D'. discriminate.
    + intros p t1 q E. apply snoc_split in E as [(_ & -> & [= ->])|(q' & _ & E)]; [|eapply F4; eauto].
      split; [lia|]. intros t2 e2 H De. specialize (B _ _ H De). lia.
    + intros p Hp. rewrite Ff, lookup_insert_ne by congruence. auto.
    + intros H. exfalso. apply (H (vNow v)). apply elem_of_app. right. apply elem_of_list_singleton. reflexivity.
    + intros d n E. rewrite D' in E. injection E as <- <-. rewrite K, Ff, lookup_insert. split; [reflexivity|]. split; [lia|]. split; [reflexivity|].
      exists tr, (vNow v), []. split; [reflexivity|]. split; [intros t' H; apply elem_of_nil in H as []|exact Se].
    + right. exists tr, (vNow v), [], (vKs v), 0%nat. split; [reflexivity|]. split; [intros t' H; apply elem_of_nil in H as []|].
      split; [exact Se|]. rewrite Ff, lookup_insert. reflexivity.
  - destruct (F7 _ _ D) as (Ed & Hl' & Hf & p0 & u0 & q0 & Etr & Hq0 & Hs0).
    assert (tr ++ [(vNow v, EByte)] = p0 ++ (u0, EDump) :: (q0 ++ [(vNow v, EByte)])) as Etr' by (rewrite Etr, <- app_assoc; reflexivity).
    assert (forall t', (t', EDump) ∉ q0 ++ [(vNow v, EByte)]) as Hq0'.
    { intros t' H. apply elem_of_app in H as [H|H]; [eapply Hq0; eauto|]. apply elem_of_list_singleton in H. discriminate H. }
    constructor.
    + lia.
    + intros t' e' H. specialize (Past _ _ H). lia.
    + rewrite D'. discriminate.
    + apply Dumps. discriminate.
    + intros p Hp. rewrite Ff, lookup_insert_ne by congruence. auto.
    + intros H. exfalso. destruct (F6 (proj1 (NoD ltac:(discriminate)) H)) as [_ X]. exact (X _ _ D).
    + intros d' n' E. rewrite D' in E. injection E as <- <-. rewrite K, Ff, lookup_insert. split; [exact Ed|]. split; [lia|]. split; [reflexivity|].
      exists p0, u0, (q0 ++ [(vNow v, EByte)]). auto.
    + right. exists p0, u0, (q0 ++ [(vNow v, EByte)]), (vKs v), (S n). rewrite Ff, lookup_insert, <- Ed. auto.
  - constructor; [lia| | | | | | |].
    + intros t' e' H. specialize (Past _ _ H). lia.
    + rewrite D'. discriminate.
    + apply Dumps. discriminate.
    + intros p Hp. rewrite Ff. auto.
    + intros H. rewrite Ff, D'. split; [apply F6; apply NoD; [discriminate|exact H]|discriminate].
    + rewrite D'. discriminate.
    + apply File; [discriminate|rewrite Ff; reflexivity].
Qed.
Lemma finv_start path ks0 f t0 : finv path ks0 f t0 [] (serving ks0 f t0).
Proof.
  constructor; cbn [serving vNow vDisp vFs]; try discriminate; auto; try lia.
  - intros t e H. apply elem_of_nil in H as [].
  - intros t [= <-]. unfold ten_minutes. split; [lia|]. intros t' e H. apply elem_of_nil in H as [].
  - intros p t q E. destruct p; discriminate E.
  - left. intros t H. apply elem_of_nil in H as [].
Qed.
Lemma finv_runs path ks0 f t0 tr v : built ks0 -> runs path (serving ks0 f t0) tr v -> finv path ks0 f t0 tr v.
Proof.
  intros B R. remember (serving ks0 f t0) as v0 eqn:E0. induction R as [v|v tr v1 e v2 R IH St]; subst; [apply finv_start|].
  eapply finv_step; eauto. exact (srv_serial _ _ _ _ _ _ B R).
Qed.
Lemma srv_dump_quiet path ks0 f t0 tr v p t q : built ks0 -> runs path (serving ks0 f t0) tr v -> tr = p ++ (t, EDump) :: q ->
  t0 + 600 <= t /\ forall t' e, (t', e) ∈ p -> dealing e -> t' + 600 <= t.
Proof. intros B R E. exact (fi_dumps _ _ _ _ _ _ (finv_runs _ _ _ _ _ _ B R) p t q E). Qed.
Lemma srv_other_files path ks0 f t0 tr v : built ks0 -> runs path (serving ks0 f t0) tr v -> forall p, p <> path -> vFs v !! p = f !! p.
Proof. intros B R. exact (fi_other _ _ _ _ _ _ (finv_runs _ _ _ _ _ _ B R)). Qed.
(** Replies never 600 seconds apart: nothing is ever written. *)
Lemma srv_busy_unwritten path ks0 f t0 tr v : built ks0 -> runs path (serving ks0 f t0) tr v ->
  (forall p t e q, tr = p ++ (t, e) :: q -> t < t0 + 600 \/ exists t' w, (t', EReply w) ∈ p /\ t < t' + 600) -> vFs v = f.
Proof.
  intros B R H. apply (fi_same _ _ _ _ _ _ (finv_runs _ _ _ _ _ _ B R)). intros t Ht. apply elem_of_list_split in Ht as (p & q & E).
  destruct (srv_dump_quiet _ _ _ _ _ _ _ _ _ B R E) as [A X].
  destruct (H _ _ _ _ E) as [Y|(t' & w & Y & Z)]; [lia|]. specialize (X _ _ Y I). lia.
Qed.
(** The file is as it was, or some beginning of the dump of the store as it was at the last dump. *)
Lemma srv_file path ks0 f t0 tr v : built ks0 -> runs path (serving ks0 f t0) tr v ->
  vFs v = f \/ exists p t q s n, tr = p ++ (t, EDump) :: q /\ (forall t', (t', EDump) ∉ q) /\ serial ks0 (dones p) s /\ vFs v !! path = Some (take n (ks_dump s)).
Proof.
  intros B R. pose proof (finv_runs _ _ _ _ _ _ B R) as F. destruct (fi_file _ _ _ _ _ _ F) as [X|X]; [left; apply (fi_same _ _ _ _ _ _ F X)|right; exact X].
Qed.
(** A finished write holds the store, and loads as it. *)
Lemma srv_written path ks0 f t0 tr v v' orNew n1 n2 g : built ks0 -> runs path (serving ks0 f t0) tr v -> step path v (EWritten true) v' ->
  vFs v' !! path = Some (ks_dump (vKs v')) /\ vKs v' = vKs v /\
  (go_kstore (vKs v) -> text_kstore (vKs v) -> load_kstore (vFs v') path orNew n1 n2 g = Ret (Some (closed_copy (vKs v)), g)).
Proof.
  intros B R St. pose proof (finv_runs _ _ _ _ _ _ B R) as F. pose proof (sinv_runs _ _ _ _ _ _ B R) as I.
  remember (EWritten true) as e eqn:Ee. destruct St; try discriminate Ee; try congruence.
  destruct (fi_write _ _ _ _ _ _ F _ _ H0) as (Ed & _ & Hf & _). rewrite firstn_all, Ed in Hf. cbn [with_disp vFs vKs].
  split; [exact Hf|]. split; [reflexivity|]. intros G T. apply load_dump; try assumption. exact (ki_ready _ (built_inv _ (si_built _ _ _ I))).
Qed.
(** Killed just after the file was emptied: it cannot be loaded. *)
Lemma empty_unloadable (f : fs) path orNew n1 n2 g : f !! path = Some [] -> load_kstore f path orNew n1 n2 g = Ret (None, g).
Proof. intros E. unfold load_kstore, read_file. rewrite E. reflexivity. Qed.
Lemma srv_torn path ks0 f t0 orNew n1 n2 g : exists tr v, runs path (serving ks0 f t0) tr v /\ vUp v = false /\
  load_kstore (vFs v) path orNew n1 n2 g = Ret (None, g).
Proof.
  eexists _, _. split.
  - eapply run_step; [eapply run_step; [eapply run_step; [constructor|]|]|].
    + apply (st_tick path _ (t0 + 600)); [reflexivity|cbn; lia].
    + eapply st_dump; [reflexivity|reflexivity|]. cbn. unfold ten_minutes. lia.
    + apply st_killed. reflexivity.
  - split; [reflexivity|]. apply empty_unloadable. cbn. apply lookup_insert.
Qed.
(** An acknowledged upload, and then a kill: the file is as it was. *)
Lemma srv_lost path ks0 f t0 l d : built ks0 -> l <> [] -> (exists v, parse_verified_key d = Some v /\ importable ks0 l v) ->
  exists tr v t, runs path (serving ks0 f t0) tr v /\ (t, EAnswer 0 (200, bs "public key added successfully")) ∈ tr /\ vUp v = false /\
    vFs v = f /\ kpresent (vKs v) l /\ ~ kpresent ks0 l.
Proof.
  intros B Nl (c & Pc & Im). pose proof (built_inv _ B) as Ik.
  assert (exists body, pem_decode d = Some (VerifiedKeyType, body) /\ parse_vkey body = Some c) as (body & Pd & Pb).
  { unfold parse_verified_key in Pc. destruct (pem_decode d) as [[ty b]|]; [|discriminate Pc].
    destruct (decide (ty <> VerifiedKeyType)) as [D|D]; [discriminate Pc|]. exists b. split; [|exact Pc].
    destruct (decide (ty = VerifiedKeyType)) as [-> |N]; [reflexivity|contradiction]. }
  destruct (import_possible t0 ks0 l body c (ki_well _ Ik) Pb Im) as (o1 & o2 & s' & O1 & O2 & E).
  assert (import_verified_key o1 o2 t0 ks0 l d = Ret (true, s')) as E' by (unfold import_verified_key; rewrite Pd, decide_False by auto; exact E).
  set (ch := Ch o1 o2 (fun _ _ => o1) o1 0). assert (fair_choices ks0 ch) as Fc by (split_and!; auto; intros i j; exact O1).
  assert (l <> bs "self") as Ns by (destruct Im as (_ & N & _); exact N).
  assert (process ch t0 ks0 (Cmd Upload l d) = Ret (Some (Resp (Some (bs "public key added successfully")) None, s'))) as Pr.
  { unfold process, check_upload. cbn [cOp cLabel cData ch chOne chTwo]. rewrite decide_False by (intros [X|X]; contradiction). rewrite E'. reflexivity. }
  set (v0 := serving ks0 f t0).
  set (v1 := with_client v0 0 (PutKey l d) (CSend (Cmd Upload l d))).
  set (v2 := with_queue (with_client v1 0 (PutKey l d) (CWait None)) (vQueue v1 ++ [(Client 0, Cmd Upload l d)])).
  set (v3 := with_disp (with_queue v2 []) (DHave (Client 0) (Cmd Upload l d))).
  set (v4 := with_disp (with_ks v3 s') (DReply (Client 0) (Resp (Some (bs "public key added successfully")) None))).
  set (v5 := with_disp (deliver v4 (Client 0) (Resp (Some (bs "public key added successfully")) None)) (DSelect (vNow v4 + ten_minutes))).
  assert (step path v0 (EArrive 0 (PutKey l d)) v1) as S1 by (apply (st_arrive path v0 0 (PutKey l d)); [reflexivity|apply lookup_empty]).
  assert (step path v1 (ESend (Client 0)) v2) as S2 by (apply (st_send path v1); [reflexivity|apply lookup_insert|cbn; unfold room; lia]).
  assert (step path v2 (ERecv (Client 0)) v3) as S3 by (eapply st_recv; reflexivity).
  assert (step path v3 (EDone (Client 0) (Cmd Upload l d) (Resp (Some (bs "public key added successfully")) None)) v4) as S4
    by (apply (st_done path v3 (Client 0) (Cmd Upload l d) ch); [reflexivity|reflexivity|exact Fc|exact Pr]).
  assert (step path v4 (EReply (Client 0)) v5) as S5 by (eapply st_reply; reflexivity).
  assert (vClients v5 !! 0%nat = Some (PutKey l d, CWait (Some (Resp (Some (bs "public key added successfully")) None)))) as C5.
  { unfold v5. cbn [deliver]. replace (vClients v4 !! 0%nat) with (Some (PutKey l d, CWait None)) by (symmetry; apply lookup_insert). apply lookup_insert. }
  assert (vFs v5 = f /\ vKs v5 = s' /\ vUp v5 = true) as (F5 & K5 & U5).
  { unfold v5. cbn [deliver]. replace (vClients v4 !! 0%nat) with (Some (PutKey l d, CWait None)) by (symmetry; apply lookup_insert). auto. }
  pose proof (st_answer path v5 0 _ _ U5 C5) as S6. cbn [answer aErr aOut obytes default] in S6.
  set (v6 := with_client v5 0 _ _) in S6. pose proof (st_killed path v6 U5) as S7.
  eexists _, (down v6), (vNow v5). split.
  - eapply run_step; [|exact S7]. eapply run_step; [|exact S6]. eapply run_step; [|exact S5]. eapply run_step; [|exact S4].
    eapply run_step; [|exact S3]. eapply run_step; [|exact S2]. eapply run_step; [|exact S1]. constructor.
  - split; [apply elem_of_app; left; apply elem_of_app; right; apply elem_of_list_singleton; reflexivity|].
    split; [reflexivity|]. split; [exact F5|]. split; [|destruct Im as (_ & _ & N & _); exact N].
    cbn [down v6 with_client vKs]. rewrite K5. apply import_sound in E as (v & _ & _ & (m & _ & ->)); [|exact (ki_well _ Ik)|exact O1|exact O2].
    eexists _, _. split; [reflexivity|]. apply lookup_insert.
Qed.

(** *** Progress *)
Definition inner_run (path : bytes) (v : server) (tr : trace) (v' : server) : Prop := runs path v tr v' /\ forall t e, (t, e) ∈ tr -> inner e.
Lemma inner_one path v e v' : step path v e v' -> inner e -> inner_run path v [(vNow v, e)] v'.
Proof. intros St N. split; [apply runs_one; exact St|]. intros t e' H. apply elem_of_list_singleton in H. injection H as _ ->. exact N. Qed.
Lemma inner_app path v tr v1 tr' v2 : inner_run path v tr v1 -> inner_run path v1 tr' v2 -> inner_run path v (tr ++ tr') v2.
Proof. intros [R N] [R' N']. split; [eapply runs_app; eauto|]. intros t e H. apply elem_of_app in H as [H|H]; eauto. Qed.
Lemma sinv_more path ks0 tr v tr' v' : sinv ks0 tr v -> runs path v tr' v' -> sinv ks0 (tr ++ tr') v'.
Proof.
  intros I R. induction R as [v|v tr' v1 e v2 R IH St]; [rewrite app_nil_r; exact I|]. rewrite app_assoc. eapply sinv_step; eauto.
Qed.
(** Answered clients stay answered. *)
Lemma deliver_clients v w r i : (forall q, vClients v !! i <> Some (q, CWait None)) -> vClients (deliver v w r) !! i = vClients v !! i.
Proof.
  intros N. destruct w as [j|]; cbn; [|destruct (vAud v) as [|[?|]|]; reflexivity].
  destruct (vClients v !! j) as [[q [c|[x|]|a]]|] eqn:E; try reflexivity. cbn.
  destruct (decide (i = j)) as [-> |Nj]; [exfalso; eapply N; eauto|]. rewrite lookup_insert_ne by congruence. reflexivity.
Qed.
Lemma step_answered path v e v' i : step path v e v' -> answered v i -> answered v' i.
Proof.
  intros St (q0 & a0 & E). assert (forall j q c, vClients v !! j <> vClients v !! i -> answered (with_client v j q c) i) as X.
  { intros j q c N. exists q0, a0. cbn. rewrite lookup_insert_ne; [exact E|]. intros ->. congruence. }
  destruct St as [v j q U N|v j q c U N Hr|v U N Hr|v t w c l U D Q|v w c ch r s U D F Pr|v w c ch U D F Pr|v w c ch U D F Pr
    |v w r U D|v j q r U N| | | | | | | | | |]; try (exists q0, a0; exact E); try (apply X; congruence).
  exists q0, a0. cbn [with_disp vClients]. rewrite deliver_clients by (intros q; congruence). exact E.
Qed.
Lemma runs_answered path v tr v' i : runs path v tr v' -> answered v i -> answered v' i.
Proof. intros R. induction R; eauto using step_answered. Qed.
(** Which clients there are. *)
Lemma step_dom path v e v' : step path v e v' -> inner e -> dom (vClients v') = dom (vClients v).
Proof.
  intros St N. assert (forall i x, is_Some (vClients v !! i) -> dom (<[i := x]> (vClients v)) = dom (vClients v)) as X.
  { intros i x H. apply dom_insert_lookup_L. exact H. }
  destruct St as [v i q U H|v i q c U H Hr|v U H Hr|v t w c l U D Q|v w c ch r s U D F Pr|v w c ch U D F Pr|v w c ch U D F Pr
    |v w r U D|v i q r U H| | | | | | | | | |]; try reflexivity; try contradiction; cbn; try (apply X; eauto).
  destruct w as [i|]; cbn; [|destruct (vAud v) as [|[?|]|]; reflexivity].
  destruct (vClients v !! i) as [[q [c|[x|]|a]]|] eqn:E; try reflexivity. cbn. apply X. eauto.
Qed.
Lemma step_up path v e v' : step path v e v' -> inner e -> vUp v' = true.
Proof.
  intros St N. destruct St; try contradiction; try assumption; cbn.
  destruct w as [i|]; cbn; [destruct (vClients v !! i) as [[q [c|[x|]|a]]|]|destruct (vAud v) as [|[?|]|]]; assumption.
Qed.
Lemma inner_run_facts path v tr v' : inner_run path v tr v' -> vUp v = true -> vUp v' = true /\ dom (vClients v') = dom (vClients v).
Proof.
  intros [R N] U. induction R as [v|v tr v1 e v2 R IH St]; [auto|].
  assert (inner e) as Ne by (eapply N; apply elem_of_app; right; apply elem_of_list_singleton; reflexivity).
  destruct IH as [U1 D1]; [intros t x H; eapply N; apply elem_of_app; left; exact H|exact U|].
  split; [eapply step_up; eauto|]. rewrite <- D1. eapply step_dom; eauto.
Qed.
(** A write can be finished. *)
Lemma finish_write path : forall k v d n, (length d - n = k)%nat -> (n <= length d)%nat -> vUp v = true -> vDisp v = DWrite d n ->
  exists tr' v', inner_run path v tr' v' /\ vQueue v' = vQueue v /\ exists t, vDisp v' = DSelect t.
Proof.
  induction k as [|k IH]; intros v d n Hk Hn U D.
  - assert (n = length d) as -> by lia. eexists _, _. split; [eapply inner_one; [eapply st_written; eassumption|exact Logic.I]|].
    split; [reflexivity|]. eexists. reflexivity.
  - assert (n < length d)%nat as Hl by lia. pose proof (st_write path v d n U D Hl) as St.
    destruct (IH (with_disp (with_files v (<[path := take (S n) d]> (vFs v))) (DWrite d (S n))) d (S n)) as (tr' & v' & R & Q); [lia|lia|exact U|reflexivity|].
    eexists _, v'. split; [eapply inner_app; [eapply inner_one; [exact St|exact Logic.I]|exact R]|exact Q].
Qed.
(** The dispatcher can come back to its select, with the queue as it is. *)
Lemma to_select path ks0 tr v : sinv ks0 tr v -> vUp v = true -> (forall w, vDisp v <> DHang w) ->
  exists tr' v', inner_run path v tr' v' /\ vQueue v' = vQueue v /\ exists t, vDisp v' = DSelect t.
Proof.
  intros I U NH.
  assert (forall tr v, sinv ks0 tr v -> vUp v = true -> forall w r, vDisp v = DReply w r ->
    exists tr' v', inner_run path v tr' v' /\ vQueue v' = vQueue v /\ exists t, vDisp v' = DSelect t) as Rep.
  { clear. intros tr v I U w r D. eexists _, _. split; [eapply inner_one; [apply st_reply; eassumption|exact Logic.I]|].
    split; [|eexists; reflexivity]. cbn. destruct w as [i|]; cbn; [destruct (vClients v !! i) as [[q [c|[x|]|a]]|]|destruct (vAud v) as [|[?|]|]]; reflexivity. }
  destruct (vDisp v) as [t|w c|w r|w|d n] eqn:D.
  - exists [], v. split; [split; [constructor|intros t' e H; apply elem_of_nil in H as []]|]. eauto.
  - destruct (process_possible (vNow v) (vKs v) c (si_built _ _ _ I)) as (ch & r & s & F & Pr).
    pose proof (st_done path v w c ch r s U D F Pr) as St.
    destruct (Rep _ _ (sinv_step _ _ _ _ _ _ I St) U w r eq_refl) as (tr' & v' & R & Q & T).
    eexists _, v'. split; [eapply inner_app; [eapply inner_one; [exact St|exact Logic.I]|exact R]|]. split; [exact Q|exact T].
  - eapply Rep; eauto.
  - exfalso. exact (NH w eq_refl).
  - eapply finish_write; [reflexivity| |exact U|exact D]. exact (si_write _ _ _ I _ _ D).
Qed.
(** It can empty the queue. *)
Lemma to_empty path ks0 : forall n tr v, length (vQueue v) = n -> sinv ks0 tr v -> vUp v = true -> (forall w, vDisp v <> DHang w) ->
  exists tr' v', inner_run path v tr' v' /\ vQueue v' = [] /\ exists t, vDisp v' = DSelect t.
Proof.
  induction n as [|n IH]; intros tr v Hn I U NH; destruct (to_select path ks0 tr v I U NH) as (tr1 & v1 & R1 & Q1 & t & D1).
  - exists tr1, v1. split; [exact R1|]. split; [|eauto]. rewrite Q1. destruct (vQueue v); [reflexivity|discriminate Hn].
  - destruct (vQueue v) as [|[w c] l] eqn:Q; [discriminate Hn|].
    destruct (inner_run_facts _ _ _ _ R1 U) as [U1 _].
    pose proof (st_recv path v1 t w c l U1 D1 Q1) as St.
    pose proof (sinv_more path _ _ _ _ _ I (proj1 R1)) as I1.
    destruct (IH ((tr ++ tr1) ++ [(vNow v1, ERecv w)]) (with_disp (with_queue v1 l) (DHave w c))) as (tr2 & v2 & R2 & Q2).
    { cbn in Hn |- *. lia. }
    { exact (sinv_step _ _ _ _ _ _ I1 St). }
    { exact U1. }
    { discriminate. }
    eexists _, v2. split; [eapply inner_app; [exact R1|eapply inner_app; [eapply inner_one; [exact St|exact Logic.I]|exact R2]]|exact Q2].
Qed.
(** One client can be answered. *)
Lemma to_answer path ks0 tr v i : sinv ks0 tr v -> vUp v = true -> (forall w, vDisp v <> DHang w) -> is_Some (vClients v !! i) ->
  exists tr' v', inner_run path v tr' v' /\ answered v' i /\ forall w, vDisp v' <> DHang w.
Proof.
  intros I U NH Hi.
  (* with the dispatcher idle, a client that has sent has its response *)
  assert (forall tr v, sinv ks0 tr v -> vUp v = true -> vQueue v = [] -> (exists t, vDisp v = DSelect t) -> is_Some (vClients v !! i) ->
    (forall q c, vClients v !! i <> Some (q, CSend c)) -> exists tr' v', inner_run path v tr' v' /\ answered v' i /\ forall w, vDisp v' <> DHang w) as Sent.
  { clear. intros tr v I U Q [t D] Hi NS. pose proof (si_client _ _ _ I i) as H. unfold client_ok in H.
    destruct (vClients v !! i) as [[q [c|[r|]|a]]|] eqn:E.
    - exfalso. eapply NS. reflexivity.
    - eexists _, _. split; [eapply inner_one; [apply st_answer; eassumption|exact Logic.I]|]. split; [|cbn; rewrite D; discriminate].
      exists q, (answer q r). apply lookup_insert.
    - exfalso. destruct H as (c & _ & [[_ H]|[[_ H]|(r & _ & H)]]); [rewrite Q in H; apply elem_of_nil in H as []|congruence..].
    - exists [], v. split; [split; [constructor|intros t' e X; apply elem_of_nil in X as []]|]. split; [exists q, a; exact E|rewrite D; discriminate].
    - destruct Hi as [? [=]]. }
  destruct (to_empty path ks0 _ tr v eq_refl I U NH) as (tr1 & v1 & R1 & Q1 & t1 & D1).
  destruct (inner_run_facts _ _ _ _ R1 U) as [U1 Dm1]. pose proof (sinv_more path _ _ _ _ _ I (proj1 R1)) as I1.
  assert (is_Some (vClients v1 !! i)) as Hi1 by (apply elem_of_dom; rewrite Dm1; apply elem_of_dom; exact Hi).
  destruct (vClients v1 !! i) as [[q [c|x|a]]|] eqn:E1; [|..|destruct Hi1 as [? [=]]].
  - assert (length (vQueue v1) < room)%nat as Hr by (rewrite Q1; cbn; unfold room; lia).
    pose proof (st_send path v1 i q c U1 E1 Hr) as St.
    pose proof (sinv_step _ _ _ _ _ _ I1 St) as I2.
    assert (forall w, vDisp (with_queue (with_client v1 i q (CWait None)) (vQueue v1 ++ [(Client i, c)])) <> DHang w) as NH2 by (cbn; rewrite D1; discriminate).
    destruct (to_empty path ks0 _ _ _ eq_refl I2 U1 NH2) as (tr3 & v3 & R3 & Q3 & D3).
    destruct (inner_run_facts _ _ _ _ R3 U1) as [U3 Dm3]. pose proof (sinv_more path _ _ _ _ _ I2 (proj1 R3)) as I3.
    destruct (Sent _ v3 I3 U3 Q3 D3) as (tr4 & v4 & R4 & A4 & N4).
    { apply elem_of_dom. rewrite Dm3. apply elem_of_dom. cbn. rewrite lookup_insert. eauto. }
    { intros q' c' X. pose proof (si_client _ _ _ I3 i) as H. unfold client_ok in H. rewrite X in H. destruct H as (H & _).
      assert (ESend (Client i) ∈ own i (((tr ++ tr1) ++ [(vNow v1, ESend (Client i))]) ++ tr3)) as Y.
      { apply own_in. split; [cbn; apply bool_decide_eq_true_2; reflexivity|]. exists (vNow v1). apply elem_of_app. left. apply elem_of_app. right.
        apply elem_of_list_singleton. reflexivity. }
      rewrite H in Y. apply elem_of_list_singleton in Y. discriminate Y. }
    eexists _, v4. split; [|split; [exact A4|exact N4]].
    eapply inner_app; [exact R1|]. eapply inner_app; [eapply inner_one; [exact St|exact Logic.I]|]. eapply inner_app; [exact R3|exact R4].
  - destruct (Sent _ v1 I1 U1 Q1 (ex_intro _ t1 D1)) as (tr4 & v4 & R4 & A4 & N4); [rewrite E1; eauto|intros q' c'; rewrite E1; discriminate|].
    eexists _, v4. split; [eapply inner_app; [exact R1|exact R4]|auto].
  - destruct (Sent _ v1 I1 U1 Q1 (ex_intro _ t1 D1)) as (tr4 & v4 & R4 & A4 & N4); [rewrite E1; eauto|intros q' c'; rewrite E1; discriminate|].
    eexists _, v4. split; [eapply inner_app; [exact R1|exact R4]|auto].
Qed.
Lemma srv_can_answer path ks0 f t0 tr v : built ks0 -> runs path (serving ks0 f t0) tr v -> vUp v = true -> (forall w, vDisp v <> DHang w) ->
  exists tr' v', runs path v tr' v' /\ (forall t e, (t, e) ∈ tr' -> inner e) /\ forall i, is_Some (vClients v !! i) -> answered v' i.
Proof.
  intros B R U NH. pose proof (sinv_runs _ _ _ _ _ _ B R) as I.
  assert (forall l : list nat, (forall i, i ∈ l -> is_Some (vClients v !! i)) -> exists tr' v', inner_run path v tr' v' /\
    (forall w, vDisp v' <> DHang w) /\ forall i, i ∈ l -> answered v' i) as X.
  { induction l as [|i l IH]; intros H.
    - exists [], v. split; [split; [constructor|intros t e Y; apply elem_of_nil in Y as []]|]. split; [exact NH|intros i Y; apply elem_of_nil in Y as []].
    - destruct IH as (tr1 & v1 & R1 & N1 & A1); [intros j Hj; apply H; right; exact Hj|].
      destruct (inner_run_facts _ _ _ _ R1 U) as [U1 Dm1].
      destruct (to_answer path ks0 _ v1 i (sinv_more path _ _ _ _ _ I (proj1 R1)) U1 N1) as (tr2 & v2 & R2 & A2 & N2).
      { apply elem_of_dom. rewrite Dm1. apply elem_of_dom. apply H. left. }
      exists (tr1 ++ tr2), v2. split; [eapply inner_app; eauto|]. split; [exact N2|]. intros j Hj. apply elem_of_cons in Hj as [-> |Hj]; [exact A2|].
      eapply runs_answered; [exact (proj1 R2)|auto]. }
  destruct (X (elements (dom (vClients v)))) as (tr' & v' & [R' N'] & _ & A).
  { intros i Hi. apply elem_of_elements, elem_of_dom in Hi. exact Hi. }
  exists tr', v'. split; [exact R'|]. split; [exact N'|]. intros i Hi. apply A. apply elem_of_elements, elem_of_dom. exact Hi.
Qed.
(** Once an audit does not end, nothing is served any more. *)
Lemma hung_step path v e v' w : vDisp v = DHang w -> step path v e v' -> vDisp v' = DHang w /\ vKs v' = vKs v /\ vFs v' = vFs v /\ ~ dealing e.
Proof. intros D St. destruct St; try congruence; cbn; auto. Qed.
Lemma hung_runs path v tr v' w : vDisp v = DHang w -> runs path v tr v' ->
  vDisp v' = DHang w /\ vKs v' = vKs v /\ vFs v' = vFs v /\ forall t e, (t, e) ∈ tr -> ~ dealing e.
Proof.
  intros D R. induction R as [v|v tr v1 e v2 R IH St]; [split_and!; auto; intros t e H; apply elem_of_nil in H as []|].
  destruct (IH D) as (D1 & K1 & F1 & N1). destruct (hung_step _ _ _ _ _ D1 St) as (D2 & K2 & F2 & N2). split_and!; try congruence.
  intros t x H. apply elem_of_app in H as [H|H]; [eauto|]. apply elem_of_list_singleton in H. injection H as _ ->. exact N2.
Qed.
Lemma srv_hang path f t0 d seed da sa n1 n2 n3 n4 n5 n6 l1 l2 s0 sA :
  length d = 32%nat -> length seed = 32%nat -> length da = 32%nat -> length sa = 32%nat -> n2 <> 0 -> int64 n3 ->
  l1 <> bs "self" -> l1 <> [] -> l2 <> bs "self" -> l2 <> [] -> l2 <> l1 -> pub_of da sa <> pub_of d seed ->
  new_kstore n1 n2 (Some (keypair d seed)) = Ret (Some s0) -> new_kstore n3 n4 (Some (keypair da sa)) = Ret (Some sA) ->
  exists s1 tr v, ks_add n5 n6 s0 l1 (pub_of da sa) None = Ret (true, s1) /\ built s1 /\
    runs path (serving s1 f t0) tr v /\ vUp v = true /\ vDisp v = DHang Auditor /\ kpresent (vKs v) l2 /\
    forall tr' v', runs path v tr' v' -> vKs v' = vKs v /\ vFs v' = vFs v /\ forall t e, (t, e) ∈ tr' -> ~ dealing e.
Proof.
  intros Hd Hs Hda Hsa Hn2 I3 N1 E1 N2 E2 N12 ND H0 HA.
  destruct (loop_reachable d seed da sa n1 n2 n3 n4 n5 n6 t0 l1 l2 s0 sA) as (cert & s1 & s2 & Ec & A1 & IM & (os & Oo & Ho) & _); try assumption.
  assert (built s0) as B0 by (eapply (bt_new n1 n2 (keypair d seed)); [apply pair_wf; assumption|exact Hn2|exact H0]).
  assert (built s1) as B1 by (eapply bt_add; eauto).
  assert (exists m, ksKeys s1 = Some m) as [m Em].
  { destruct (ksKeys s1) eqn:E; [eauto|]. destruct (ki_ready _ (built_inv _ B1)) as (_ & _ & []). exact E. }
  assert (an_order s1 (map_to_list m)) as Om by (exists m; auto).
  pose proof (IM _ _ Om Om) as E. assert (built s2) as B2 by (eapply bt_import_pem; [exact B1|exact Om|exact Om|exact E]).
  assert (kpresent s2 l2) as P2.
  { apply import_key_cases in E as [([=] & _)|(_ & c & _ & _ & (m' & _ & ->))]; [|exact (ki_well _ (built_inv _ B1))|exact Om|exact Om].
    eexists _, _. split; [reflexivity|]. apply lookup_insert. }
  pose proof P2 as (m2 & x2 & Em2 & Hx2).
  destruct (elem_of_list_split (map_to_list m2) (l2, x2)) as (p & q & Ep); [apply elem_of_map_to_list; exact Hx2|].
  assert (an_order s2 ((l2, x2) :: p ++ q)) as Ol by (exists m2; split; [exact Em2|]; rewrite Ep; apply Permutation_middle).
  set (ok := Resp (Some (bs "public key added successfully")) None).
  set (ch1 := Ch (map_to_list m) (map_to_list m) (fun _ _ => map_to_list m) (map_to_list m) 0).
  assert (fair_choices s1 ch1) as F1 by (split_and!; auto; intros i j; exact Om).
  assert (process ch1 t0 s1 (Cmd Upload l2 cert) = Ret (Some (ok, s2))) as P1.
  { unfold process, check_upload. cbn [cOp cLabel cData ch1 chOne chTwo]. rewrite decide_False by (intros [X|X]; contradiction). rewrite E. reflexivity. }
  set (ch2 := Ch ((l2, x2) :: p ++ q) ((l2, x2) :: p ++ q) (fun _ => os) ((l2, x2) :: p ++ q) 0).
  assert (fair_choices s2 ch2) as F2 by (split_and!; auto).
  assert (forall n, process (Ch (chOne ch2) (chTwo ch2) (chOs ch2) (chLabels ch2) n) t0 s2 (Cmd Audit [] []) = Ret None) as Pn.
  { intros n. unfold process. cbn [cOp chOs chRounds chLabels ch2]. unfold key_audit.
    rewrite (proj2 (ks_quick_iff s2) (ki_ready _ (built_inv _ B2))). cbn [negb audit_loop]. rewrite Ho. reflexivity. }
  set (v0 := serving s1 f t0).
  set (v1 := with_client v0 0 (PutKey l2 cert) (CSend (Cmd Upload l2 cert))).
  set (v2 := with_queue (with_client v1 0 (PutKey l2 cert) (CWait None)) (vQueue v1 ++ [(Client 0, Cmd Upload l2 cert)])).
  set (v3 := with_disp (with_queue v2 []) (DHave (Client 0) (Cmd Upload l2 cert))).
  set (v4 := with_disp (with_ks v3 s2) (DReply (Client 0) ok)).
  set (v5 := with_disp (deliver v4 (Client 0) ok) (DSelect (vNow v4 + ten_minutes))).
  assert (v5 = with_disp (with_client v4 0 (PutKey l2 cert) (CWait (Some ok))) (DSelect (vNow v4 + ten_minutes))) as V5.
  { unfold v5. cbn [deliver]. replace (vClients v4 !! 0%nat) with (Some (PutKey l2 cert, CWait None)) by (symmetry; apply lookup_insert). reflexivity. }
  assert (step path v0 (EArrive 0 (PutKey l2 cert)) v1) as S1 by (apply (st_arrive path v0 0 (PutKey l2 cert)); [reflexivity|apply lookup_empty]).
  assert (step path v1 (ESend (Client 0)) v2) as S2 by (apply (st_send path v1); [reflexivity|apply lookup_insert|cbn; unfold room; lia]).
  assert (step path v2 (ERecv (Client 0)) v3) as S3 by (eapply st_recv; reflexivity).
  assert (step path v3 (EDone (Client 0) (Cmd Upload l2 cert) ok) v4) as S4
    by (apply (st_done path v3 (Client 0) (Cmd Upload l2 cert) ch1); [reflexivity|reflexivity|exact F1|exact P1]).
  assert (step path v4 (EReply (Client 0)) v5) as S5 by (eapply st_reply; reflexivity).
  clearbody v5. subst v5. set (v5 := with_disp _ _) in S5.
  set (v6 := with_queue (with_aud v5 (AWait None)) (vQueue v5 ++ [(Auditor, Cmd Audit [] [])])).
  set (v7 := with_disp (with_queue v6 []) (DHave Auditor (Cmd Audit [] []))).
  assert (step path v5 (ESend Auditor) v6) as S6 by (apply st_send_audit; [reflexivity|reflexivity|cbn; unfold room; lia]).
  assert (step path v6 (ERecv Auditor) v7) as S7 by (eapply st_recv; reflexivity).
  assert (step path v7 EHang (with_disp v7 (DHang Auditor))) as S8 by (apply (st_hang path v7 Auditor (Cmd Audit [] []) ch2); [reflexivity|reflexivity|exact F2|exact Pn]).
  eexists s1, _, (with_disp v7 (DHang Auditor)). split; [exact A1|]. split; [exact B1|]. split.
  - eapply run_step; [|exact S8]. eapply run_step; [|exact S7]. eapply run_step; [|exact S6]. eapply run_step; [|exact S5].
    eapply run_step; [|exact S4]. eapply run_step; [|exact S3]. eapply run_step; [|exact S2]. eapply run_step; [|exact S1]. constructor.
  - split; [reflexivity|]. split; [reflexivity|]. split; [exact P2|]. intros tr' v' R.
    destruct (hung_runs path (with_disp v7 (DHang Auditor)) tr' v' Auditor eq_refl R) as (_ & X & Y & Z). auto.
Qed.
(** With distinct keys no audit hangs. *)
Lemma srv_no_hang path ks0 f t0 tr v e v' : built ks0 -> runs path (serving ks0 f t0) tr v -> distinct_keys (vKs v) -> step path v e v' -> e <> EHang.
Proof.
  intros B R Dk St ->. pose proof (sinv_runs _ _ _ _ _ _ B R) as I. destruct (built_complete _ (si_built _ _ _ I) Dk) as [n Hn].
  inversion St as [| | | | | |v0 w c ch U D F Pr| | | | | | | | | | | |]; subst.
  specialize (Pr n). destruct F as (O1 & O2 & Os & Ol). destruct c as [o l d].
  assert (o = Audit \/ o <> Audit) as [-> |No] by (destruct o; auto; right; discriminate).
  - unfold process in Pr. cbn [cOp chOs chRounds chLabels] in Pr. rewrite (proj2 (Hn n ltac:(lia)) _ _ Os Ol) in Pr. discriminate Pr.
  - revert Pr. apply process_ends. exact No.
Qed.
End WithCrypto.

(** Proofs about KeySrv.v: what is left of the store over several processes. *)
From Verif Require Export SpecLives KeySrvStart FcryptStore JsonTorn.
Local Open Scope Z_scope.

Section WithCrypto.
Context {C : Crypto} {L : CryptoLaws}.

(** A dump that is cut short is not loaded. *)
Lemma torn_dump (s : kstore) (n : nat) (f : fs) (path : bytes) : (n < length (ks_dump s))%nat -> f !! path = Some (take n (ks_dump s)) -> unloadable f path.
Proof.
  intros Hn F orNew n1 n2 g. unfold load_kstore, read_file. rewrite F.
  assert (parse_json (take n (ks_dump s)) = None) as ->; [|reflexivity].
  eapply (torn_object _ _ (drop n (ks_dump s)) (int_jkstore s)); [rewrite take_drop; reflexivity|].
  intros E. apply (f_equal length) in E. rewrite drop_length in E. change (length []) with 0%nat in E. lia.
Qed.
Lemma process_good ch now s c r s' : built s -> fair_choices s ch -> process ch now s c = Ret (Some (r, s')) -> int64 now ->
  (forall l d, c = Cmd Upload l d -> r = Resp (Some (bs "public key added successfully")) None -> utf8_text l) -> good_kstore s -> good_kstore s'.
Proof.
  intros B (O1 & O2 & Os & Ol) H Hn Ht G. pose proof (built_inv s B) as [R W Ow Pv T]. destruct c as [[| | |] l d]; unfold process in H; cbn [cOp cLabel cData] in H.
  - injection H as _ <-. exact G.
  - injection H as _ <-. exact G.
  - unfold check_upload in H. cbn [cLabel cData] in H. case_decide as D.
    + cbn [obind] in H. injection H as _ <-. exact G.
    + destruct (import_verified_key _ _ now s l d) as [[b s1]|] eqn:E; cbn [obind] in H; [|discriminate H].
      destruct b; injection H as <- <-.
      * specialize (Ht l d eq_refl eq_refl). apply import_key_sound in E as (v & _ & _ & Iv & Ad); try assumption. eapply good_added; [exact Ad|exact G|exact Ht|].
        split; [cbn; unfold int64 in *; lia|]. split; [exact Ht|]. cbn. discriminate.
      * apply import_key_cases in E as [(_ & -> & _)|([=] & _)]; assumption.
  - destruct (key_audit _ _ _ _) as [[b|]|]; cbn [obind] in H; [|discriminate H..]. injection H as _ <-. exact G.
Qed.
Lemma runs_good path ks0 f t0 tr v : built ks0 -> good_kstore ks0 -> runs path (serving ks0 f t0) tr v -> text_uploads tr -> real_times tr -> good_kstore (vKs v).
Proof.
  intros B G R. remember (serving ks0 f t0) as v0 eqn:E0. induction R as [v|v tr v1 e v2 R IH St]; intros Tu Rt; [subst v; exact G|]. subst v.
  assert (good_kstore (vKs v1)) as G1.
  { apply IH; [reflexivity| |].
    - intros w l d H. eapply (Tu w l d). rewrite dones_snoc. apply elem_of_app. left. exact H.
    - intros t e' H. eapply Rt. apply elem_of_app. left. exact H. }
  pose proof (si_built _ _ _ (sinv_runs _ _ _ _ _ _ B R)) as B1.
  assert (int64 (vNow v1)) as Hn. { eapply Rt. apply elem_of_app. right. left. }
  destruct St; try exact G1.
  - eapply process_good; [exact B1|eassumption|eassumption|exact Hn| |exact G1].
    intros l d -> ->. eapply Tu. rewrite dones_snoc. apply elem_of_app. right. left.
  - cbn [with_disp vKs]. rewrite (proj2 (deliver_same v w r)). exact G1.
Qed.
Lemma serial_snoc_app s l1 s1 l2 s2 : serial s l1 s1 -> serial s1 l2 s2 -> serial s (l1 ++ l2) s2.
Proof. intros H1 H2. induction H2 as [|s1 l s3 w c r s4 H2 IH Sv]; [rewrite app_nil_r; exact H1|]. rewrite app_assoc. econstructor; eauto. Qed.
Lemma serial_rest s l s' : serial s l s' -> ksVersion s' = ksVersion s /\ ksTime s' = ksTime s /\ ksBlob s' = ksBlob s /\ ksPub s' = ksPub s /\ ksExport s' = ksExport s /\ ksPriv s' = ksPriv s /\ ksLocked s' = ksLocked s.
Proof.
  induction 1 as [|s l s1 w c r s2 H IH Sv]; [auto 10|]. destruct Sv; try exact IH. destruct (added_same _ _ _ _ H3) as (A1 & A2 & A3 & A4 & A5 & A6 & A7 & _).
  destruct IH as (B1 & B2 & B3 & B4 & B5 & B6 & B7). split_and!; congruence.
Qed.
(** The file is the one found, or a beginning of the dump of the store at some time. *)
Lemma srv_cut path ks0 f t0 tr v : built ks0 -> runs path (serving ks0 f t0) tr v ->
  vFs v = f \/ exists p q vm n, tr = p ++ q /\ runs path (serving ks0 f t0) p vm /\ vFs v !! path = Some (take n (ks_dump (vKs vm))).
Proof.
  intros B R. remember (serving ks0 f t0) as v0 eqn:E0. induction R as [v|v tr v1 e v2 R IH St]; [left; subst v; reflexivity|]. specialize (IH E0). subst v.
  assert (vFs v2 = vFs v1 -> vFs v2 = f \/ exists p q vm n, tr ++ [(vNow v1, e)] = p ++ q /\ runs path (serving ks0 f t0) p vm /\ vFs v2 !! path = Some (take n (ks_dump (vKs vm)))) as Same.
  { intros E. rewrite E. destruct IH as [IH|(p & q & vm & n & -> & Rp & F)]; [left; exact IH|right]. exists p, (q ++ [(vNow v1, e)]), vm, n. rewrite app_assoc. auto. }
  destruct (step_disp _ _ _ _ St) as [(_ & Ff & _)|[(_ & Ff & _)|[(t & D & Ht & -> & D' & Ff & K)|[(d & n & D & Hl & -> & D' & Ff & K)|(_ & Ff & _)]]]]; auto.
  - right. exists tr, [(vNow v1, EDump)], v1, 0%nat. split; [reflexivity|]. split; [exact R|]. rewrite Ff, lookup_insert. reflexivity.
  - right. exists tr, [(vNow v1, EByte)], v1, (S n). split; [reflexivity|]. split; [exact R|]. rewrite Ff, lookup_insert.
    destruct (fi_write _ _ _ _ _ _ (finv_runs _ _ _ _ _ _ B R) _ _ D) as (-> & _). reflexivity.
Qed.
(** What a process leaves: the file it found, one that cannot be loaded, or a dump of the store
    after the first so many of its commands. *)
Lemma srv_leaves path ks0 f t0 tr v : built ks0 -> good_kstore ks0 -> runs path (serving ks0 f t0) tr v -> text_uploads tr -> real_times tr ->
  vFs v = f \/ unloadable (vFs v) path \/
  exists p q s, tr = p ++ q /\ serial ks0 (dones p) s /\ vFs v !! path = Some (ks_dump s) /\ built s /\ good_kstore s /\
    forall orNew n1 n2 g, load_kstore (vFs v) path orNew n1 n2 g = Ret (Some (closed_copy s), g).
Proof.
  intros B G R Tu Rt. destruct (srv_cut path ks0 f t0 tr v B R) as [E|(p & q & vm & n & -> & Rp & F)]; [left; exact E|right].
  destruct (decide (n < length (ks_dump (vKs vm)))%nat) as [Hn|Hn]; [left; eapply torn_dump; eauto|right].
  rewrite take_ge in F by lia. pose proof (si_built _ _ _ (sinv_runs _ _ _ _ _ _ B Rp)) as Bm.
  assert (good_kstore (vKs vm)) as Gm.
  { apply (runs_good path ks0 f t0 p vm B G Rp).
    - intros w l d H. apply (Tu w l d). rewrite dones_app. apply elem_of_app. left. exact H.
    - intros t e H. apply (Rt t e). apply elem_of_app. left. exact H. }
  exists p, q, (vKs vm). split; [reflexivity|]. split; [exact (srv_serial _ _ _ _ _ _ B Rp)|]. split; [exact F|]. split; [exact Bm|]. split; [exact Gm|].
  intros orNew n1 n2 g. apply load_dump; auto using good_kgo, good_ktext. exact (ki_ready _ (built_inv _ Bm)).
Qed.
(** A store that is open and started again from its dump is the same. *)
Lemma start_same s k f path pass n1 n2 n3 g w s1 g' : built s -> good_kstore s -> f !! path = Some (ks_dump s) -> ksBlob s <> None -> ksExport s <> None ->
  ksPriv s = Some k -> ksLocked s = false -> owns s k -> serve_load f path (Some pass) n1 n2 n3 g w = Ret (Some s1, f, g') -> ksPriv s1 = Some k -> s1 = s.
Proof.
  intros B G F Nb Ne P Lk O St P1. pose proof (good_kgo _ G) as Gg. pose proof (good_ktext _ G) as Gt.
  assert (unlock_key (octets_of (ksBlob s)) pass = Ret (Some k)) as U.
  { pose proof St as St'. unfold serve_load in St'. rewrite F in St'. rewrite (load_dump s f path true n1 n2 g) in St' by (auto; exact (ki_ready _ (built_inv _ B))).
    cbn [obind] in St'. destruct (ks_valid _) as [[]|]; cbn [obind negb] in St'; try discriminate St'.
    destruct (ks_unlock n3 (closed_copy s) pass) as [[b s2]|] eqn:U; cbn [obind] in St'; [|discriminate St']. destruct b; [|discriminate St']. injection St' as -> _.
    apply unlock_inv in U as [[-> _]|(_ & _ & L0 & d & sg & e & v & U & W & ->)].
    - cbn in P1. discriminate P1.
    - cbn in P1, U. injection P1 as <-. exact U. }
  destruct (start_again s f path pass n1 n2 n3 g w k B Gg Gt F U Nb O Ne) as (s' & E & (A1 & A2 & A3 & A4 & A5 & A6) & A7 & _).
  rewrite St in E. injection E as <- _. destruct (start_inv _ _ _ _ _ _ _ _ _ _ _ St) as [_ X]. destruct (X s1 eq_refl) as (_ & _ & _ & L1 & _).
  destruct s as [a1 a2 a3 a4 a5 a6 a7 a8], s1 as [b1 b2 b3 b4 b5 b6 b7 b8]. cbn in *. congruence.
Qed.
Lemma unloadable_stays path k f ds f' : lives path k f ds f' -> unloadable f path -> is_Some (f !! path) -> ds = [] /\ unloadable f' path.
Proof.
  induction 1 as [f|f pass n1 n2 n3 g w s g' t0 tr v ds f' St P R Tu Rt H IH|f f1 ds f' E H IH]; intros U [d F].
  - auto.
  - exfalso. unfold serve_load in St. rewrite F, (U true n1 n2 g) in St. discriminate St.
  - apply IH; [|rewrite E; eauto]. intros orNew n1 n2 g. rewrite <- (U orNew n1 n2 g). unfold load_kstore, read_file. rewrite E. reflexivity.
Qed.
Lemma srv_lives path k s f ds f' : lives path k f ds f' -> built s -> good_kstore s -> f !! path = Some (ks_dump s) -> ksBlob s <> None -> ksExport s <> None ->
  ksPriv s = Some k -> ksLocked s = false -> owns s k ->
  exists ps, Forall2 prefix ps ds /\
    (unloadable f' path \/ exists s', serial s (concat ps) s' /\ f' !! path = Some (ks_dump s') /\ built s' /\
       forall orNew n1 n2 g, load_kstore f' path orNew n1 n2 g = Ret (Some (closed_copy s'), g)).
Proof.
  intros H. revert s. induction H as [f|f pass n1 n2 n3 g w s1 g' t0 tr v ds f' St P1 R Tu Rt H IH|f f1 ds f' E H IH]; intros s B G F Nb Ne P Lk O.
  - exists []. split; [constructor|]. right. exists s. split; [constructor|]. split; [exact F|]. split; [exact B|]. intros. apply load_dump; auto using good_kgo, good_ktext.
    exact (ki_ready _ (built_inv _ B)).
  - pose proof (start_same s k f path pass n1 n2 n3 g w s1 g' B G F Nb Ne P Lk O St P1) as ->.
    destruct (srv_leaves path s f t0 tr v B G R Tu Rt) as [E|[U|(p & q & s' & -> & Se & F' & B' & G' & _)]].
    + rewrite E in IH. destruct (IH s B G F Nb Ne P Lk O) as (ps & Fp & X). exists ([] :: ps). split; [constructor; [apply prefix_nil|exact Fp]|exact X].
    + destruct (decide (is_Some (vFs v !! path))) as [Hs|Hs].
      * destruct (unloadable_stays _ _ _ _ _ H U Hs) as [-> U']. exists [[]]. split; [constructor; [apply prefix_nil|constructor]|left; exact U'].
      * exfalso. destruct (srv_cut path s f t0 tr v B R) as [E|(? & ? & ? & ? & _ & _ & E)]; apply Hs; rewrite ?E; eauto.
    + destruct (serial_rest _ _ _ Se) as (R1 & R2 & R3 & R4 & R5 & R6 & R7).
      destruct (IH s' B' G' F') as (ps & Fp & X); [congruence..| |].
      { destruct O as (d & sg & e & v' & -> & W & Ow). exists d, sg, e, v'. split; [reflexivity|]. split; [exact W|]. unfold owner in *. rewrite R4. exact Ow. }
      exists (dones p :: ps). split.
      { constructor; [|exact Fp]. exists (dones q). apply dones_app. }
      destruct X as [U|(s2 & Se2 & Y)]; [left; exact U|right]. exists s2. split; [|exact Y]. cbn [concat]. eapply serial_snoc_app; eauto.
  - apply IH with (s := s); auto. rewrite E. exact F.
Qed.
Lemma good_kiff s : go_kstore s -> text_kstore s -> good_kstore s.
Proof.
  intros (A & B & G) T. split; [exact A|]. split; [exact B|]. intros m E k v H. destruct (T m k v E H) as [Tk Tr]. split; [exact Tk|].
  intros r ->. destruct (Tr r eq_refl) as [Lb D]. split; [apply (G k r); exists m; auto|]. split; [exact Lb|]. intros md Em k' t Ek. exact (D md k' t Em Ek).
Qed.
Lemma srv_leaves_text path ks0 f t0 tr v : built ks0 -> go_kstore ks0 -> text_kstore ks0 -> runs path (serving ks0 f t0) tr v -> text_uploads tr -> real_times tr ->
  vFs v = f \/ unloadable (vFs v) path \/
  exists p q s, tr = p ++ q /\ serial ks0 (dones p) s /\ vFs v !! path = Some (ks_dump s) /\
    forall orNew n1 n2 g, load_kstore (vFs v) path orNew n1 n2 g = Ret (Some (closed_copy s), g).
Proof.
  intros B G T R Tu Rt. destruct (srv_leaves path ks0 f t0 tr v B (good_kiff _ G T) R Tu Rt) as [H|[H|(p & q & s & E & Se & F & _ & _ & Ld)]]; [auto|auto|].
  right; right. exists p, q, s. auto.
Qed.
Lemma srv_lives_text path k s f ds f' : lives path k f ds f' -> built s -> go_kstore s -> text_kstore s -> f !! path = Some (ks_dump s) ->
  ksBlob s <> None -> ksExport s <> None -> ksPriv s = Some k -> ksLocked s = false -> owns s k ->
  exists ps, Forall2 prefix ps ds /\
    (unloadable f' path \/ exists s', serial s (concat ps) s' /\ f' !! path = Some (ks_dump s') /\ built s' /\
       forall orNew n1 n2 g, load_kstore f' path orNew n1 n2 g = Ret (Some (closed_copy s'), g)).
Proof. intros H B G T. apply srv_lives; auto using good_kiff. Qed.
Lemma write_all path : forall k v d n, (length d - n = k)%nat -> (n <= length d)%nat -> vUp v = true -> vDisp v = DWrite d n -> vFs v !! path = Some (take n d) ->
  exists m v', runs path v (replicate m (vNow v, EByte)) v' /\ vFs v' !! path = Some d.
Proof.
  induction k as [|k IH]; intros v d n Hk Hn U D F.
  - exists 0%nat, v. split; [constructor|]. rewrite F, take_ge by lia. reflexivity.
  - assert (n < length d)%nat as Hl by lia. pose proof (st_write path v d n U D Hl) as St.
    destruct (IH (with_disp (with_files v (<[path := take (S n) d]> (vFs v))) (DWrite d (S n))) d (S n)) as (m & v' & R & Q); [lia|lia|exact U|reflexivity|apply lookup_insert|].
    exists (S m), v'. split; [|exact Q]. exact (runs_app _ _ _ _ _ _ (runs_one _ _ _ _ St) R).
Qed.
(** A store made with a passphrase, served, written and served again. *)
Lemma lives_twice path s (pass : bytes) g k salt nonce g' : built s -> go_kstore s -> text_kstore s -> ksLocked s = false -> ksPriv s = Some k -> ksExport s <> None ->
  length salt = 32%nat -> length nonce = 24%nat -> delivers g (salt ++ nonce) g' ->
  exists s1 f f' ds, lives path k f ds f' /\ length ds = 2%nat /\
    built s1 /\ go_kstore s1 /\ text_kstore s1 /\ f !! path = Some (ks_dump s1) /\ ksBlob s1 <> None /\ ksExport s1 <> None /\
    ksPriv s1 = Some k /\ ksLocked s1 = false /\ owns s1 k /\ ksKeys s1 = ksKeys s.
Proof.
  intros B G T Lk P Ex Ls Ln D. pose proof (built_inv s B) as [R W Ow Pv _].
  assert (healthy s) as H. { split; [exact R|]. split; [exact Ow|]. intros _. exists k. auto. }
  assert (go_priv s) as Gp. { intros k' E. destruct (Pv k' E) as (? & ? & ? & ? & _ & X & _). exact X. }
  destruct (proj2 (proj2 (proj2 (lock_with_exact s pass g Gp))) H Lk salt nonce g' Ls Ln D) as (k' & z & blob & E & _ & _ & U & Lw).
  rewrite P in E. injection E as <-. set (s0 := with_priv (with_blob s (Some blob)) None true) in *.
  pose proof (bt_lock_with s pass g true s0 _ _ B Lw) as B0.
  set (f := {[path := ks_dump s0]} : fs). assert (f !! path = Some (ks_dump s0)) as F by apply lookup_singleton.
  assert (forall orNew, exists s1, serve_load f path (Some pass) 0 0 0 [] orNew = Ret (Some s1, f, []) /\ same_public s0 s1 /\ ksPriv s1 = Some k /\ built s1) as St.
  { intros w. apply start_again; try assumption; try exact U; try discriminate. apply (owns_owner s s0); [reflexivity|]. auto. }
  destruct (St WOk) as (s1 & S1 & Sp & P1 & B1). destruct Sp as (E1 & E2 & E3 & E4 & E5 & E6).
  assert (ks_dump s1 = ks_dump s0) as Ed by (unfold ks_dump; rewrite <- E1, <- E2, <- E3, <- E4, <- E5, <- E6; reflexivity).
  assert (good_kstore s1) as G1. { pose proof (good_kiff s G T) as (X & Y & M). unfold good_kstore. rewrite <- E1, <- E2, <- E3. exact (conj X (conj Y M)). }
  assert (ksLocked s1 = false) as L1.
  { destruct (start_inv _ _ _ _ _ _ _ _ _ _ _ S1) as [_ X]. destruct (X s1 eq_refl) as (_ & _ & _ & L1 & _). exact L1. }
  pose proof (st_tick path (serving s1 f 0) 600 eq_refl eq_refl) as Tk. apply runs_one in Tk.
  pose proof (st_dump path (with_now (serving s1 f 0) 600) 600 eq_refl eq_refl ltac:(reflexivity)) as Du. apply runs_one in Du.
  destruct (write_all path _ (with_disp (with_files (with_now (serving s1 f 0) 600) (<[path := []]> f)) (DWrite (ks_dump s1) 0)) (ks_dump s1) 0 eq_refl ltac:(lia) eq_refl eq_refl
    (lookup_insert _ _ _)) as (m & v & Rw & Fv).
  pose proof (runs_app _ _ _ _ _ _ (runs_app _ _ _ _ _ _ Tk Du) Rw) as Ra.
  assert (owns s1 k) as O1 by (apply (built_inv _ B1); exact P1).
  assert (forall tr, (forall t e, (t, e) ∈ tr -> t ∈ [0; 600] /\ e ∈ [ETick; EDump; EByte]) -> dones tr = [] /\ real_times tr) as Dn.
  { intros tr X. split.
    - clear -X. induction tr as [|[t e] tr IH]; [reflexivity|]. assert (dones tr = []) as Y by (apply IH; intros; apply X; right; assumption).
      destruct (X t e ltac:(left)) as [_ Z]. unfold dones in *. rewrite !elem_of_cons, elem_of_nil in Z. destruct Z as [->|[->|[->|[]]]]; exact Y.
    - intros t e H'. destruct (X t e H') as [Z _]. rewrite !elem_of_cons, elem_of_nil in Z. unfold int64. destruct Z as [->|[->|[]]]; lia. }
  assert (forall tr, dones tr = [] -> text_uploads tr) as Tx. { intros tr E w l dd X. rewrite E in X. inversion X. }
  destruct (Dn (([(0, ETick)] ++ [(600, EDump)]) ++ replicate m (600, EByte))) as [Da Rt].
  { intros t e H'. rewrite !elem_of_app, !elem_of_list_singleton in H'. destruct H' as [[H'|H']|H']; [injection H' as -> ->; set_solver..|].
    apply elem_of_replicate in H' as [H' _]. injection H' as -> ->. set_solver. }
  exists s1, f, (vFs v). eexists. split.
  { eapply (lv_serve path k f pass); [exact S1|exact P1|exact Ra|exact (Tx _ Da)|exact Rt|].
    destruct (start_again s1 (vFs v) path pass 0 0 0 [] WOk k) as (s2 & S2 & _ & P2 & _); auto using good_kgo, good_ktext.
    { rewrite <- E4. exact U. } { rewrite <- E4. discriminate. } { rewrite <- E6. exact Ex. }
    eapply (lv_serve path k (vFs v) pass 0 0 0 [] WOk s2 [] 0 [] (serving s2 (vFs v) 0)); [exact S2|exact P2|constructor|apply Tx; reflexivity|intros t e X; inversion X|constructor]. }
  split; [reflexivity|]. split; [exact B1|]. split; [apply good_kgo, G1|]. split; [apply good_ktext, G1|]. split; [rewrite Ed; exact F|].
  split; [rewrite <- E4; discriminate|]. split; [rewrite <- E6; exact Ex|]. split; [exact P1|]. split; [exact L1|]. split; [exact O1|]. rewrite <- E3. reflexivity.
Qed.
End WithCrypto.

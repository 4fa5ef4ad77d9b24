(** The order of requests, what was uploaded, and starting the key server. *)
From Verif Require Export KeySrvClaims.
Local Open Scope Z_scope.

Section WithCrypto.
Context {C : Crypto} {L : CryptoLaws}.

(** *** The point at which a request takes effect *)
Lemma serial_split s l s' p x q : serial s l s' -> l = p ++ x :: q ->
  exists s1 s2, serial s p s1 /\ served s1 (snd (fst x)) (snd x) s2.
Proof.
  intros H. revert q. induction H as [s|s l s1 w c r s2 H IH Sv]; intros q E; [destruct p; discriminate E|].
  apply snoc_split in E as [(_ & -> & ->)|(q' & _ & E)]; [eauto|]. eapply IH; eauto.
Qed.
Lemma srv_effect path ks0 f now tr v i t a : built ks0 -> runs path (serving ks0 f now) tr v -> (t, EAnswer i a) ∈ tr ->
  exists q c r p rest s s', own i tr = life i q c r /\ command_of q = Some c /\ a = answer q r /\
    dones tr = p ++ (Client i, c, r) :: rest /\ (forall x, x ∈ p ++ rest -> fst (fst x) <> Client i) /\
    serial ks0 p s /\ served s c r s'.
Proof.
  intros B R H. destruct (srv_answer _ _ _ _ _ _ _ _ _ B R H) as (q & c & r & Hc & Ha & Ho & Hd).
  apply elem_of_list_split in Hd as (p & rest & E). exists q, c, r, p, rest.
  destruct (serial_split _ _ _ _ _ _ (srv_serial _ _ _ _ _ _ B R) E) as (s & s' & S1 & S2). exists s, s'.
  split; [exact Ho|]. split; [exact Hc|]. split; [exact Ha|]. split; [exact E|]. split; [|split; [exact S1|exact S2]].
  assert (forall tr : trace, omap (fun e => match e with EDone w _ _ => Some w | _ => None end) (own i tr) =
    filter (fun w => w = Client i) (map (fun x => fst (fst x)) (dones tr))) as X.
  { clear. induction tr as [|[t e] tr IH]; [reflexivity|].
    unfold own, dones in *. cbn [omap list_omap snd]. destruct e as [k q|[k|]|[k|]|[k|] c r|[k|]|k a| | | | | | | | |]; cbn [concerns map filter list_filter fst snd]; try exact IH;
      try (destruct (bool_decide (k = i)); cbn [omap list_omap]; exact IH).
    - destruct (decide (k = i)) as [-> |N].
      + rewrite bool_decide_eq_true_2, decide_True by reflexivity. cbn [omap list_omap]. f_equal. exact IH.
      + rewrite bool_decide_eq_false_2, decide_False by congruence. exact IH. }
  specialize (X tr). rewrite Ho, E, map_app, filter_app in X. cbn [life omap list_omap map filter list_filter fst snd] in X. rewrite decide_True in X by reflexivity.
  apply (f_equal length) in X. rewrite app_length in X. cbn [length] in X.
  intros x Hx Ex. apply elem_of_app in Hx as [Hx|Hx].
  - assert (Client i ∈ filter (fun w => w = Client i) (map (fun x => fst (fst x)) p)) as Y.
    { apply elem_of_list_filter. split; [reflexivity|]. rewrite <- Ex. apply elem_of_list_fmap. eauto. }
    destruct (filter (fun w => w = Client i) (map (fun x => fst (fst x)) p)); [apply elem_of_nil in Y as []|cbn in X; lia].
  - assert (Client i ∈ filter (fun w => w = Client i) (map (fun x => fst (fst x)) rest)) as Y.
    { apply elem_of_list_filter. split; [reflexivity|]. rewrite <- Ex. apply elem_of_list_fmap. eauto. }
    destruct (filter (fun w => w = Client i) (map (fun x => fst (fst x)) rest)); [apply elem_of_nil in Y as []|cbn in X; lia].
Qed.
(** A request answered before another arrives takes effect before it. *)
Lemma dones_app p q : dones (p ++ q) = dones p ++ dones q.
Proof. unfold dones. apply omap_app. Qed.
Lemma runs_prefix path v tr v' : runs path v tr v' -> forall p q, tr = p ++ q -> exists vm, runs path v p vm.
Proof.
  induction 1 as [v|v tr v1 e v2 R IH St]; intros p q E.
  - destruct p; [|discriminate E]. exists v. constructor.
  - destruct q as [|x q _] using rev_ind; [rewrite app_nil_r in E; subst p; exists v2; econstructor; eauto|].
    rewrite app_assoc in E. apply app_inj_tail in E as [E _]. eapply IH; eauto.
Qed.
Lemma srv_real_time path ks0 f now tr v p q i j t a : built ks0 -> runs path (serving ks0 f now) tr v -> tr = p ++ q ->
  (t, EAnswer j a) ∈ p -> (forall t' x, (t', EArrive i x) ∉ p) ->
  (exists c r, (Client j, c, r) ∈ dones p) /\ forall c r, (Client i, c, r) ∉ dones p.
Proof.
  intros B R E Hj Hi. destruct (runs_prefix _ _ _ _ R p q E) as [vm Rp]. split.
  - destruct (srv_answer _ _ _ _ _ _ _ _ _ B Rp Hj) as (x & c & r & _ & _ & _ & H). eauto.
  - intros c r H. apply dones_in in H as [t' H]. cbn [fst snd] in H.
    assert (EDone (Client i) c r ∈ own i p) as Ho by (apply own_in; split; [cbn; apply bool_decide_eq_true_2; reflexivity|eauto]).
    assert (exists x, EArrive i x ∈ own i p) as [x Hx].
    { destruct (srv_life _ _ _ _ _ _ i B Rp) as [[e E']|(x & c' & r' & _ & [k E'])]; [rewrite E'; eexists; left|].
      destruct (own i p) as [|y l]; [apply elem_of_nil in Ho as []|]. cbn in E'. injection E' as <- _. eexists. left. }
    apply own_in in Hx as (_ & t1 & Hx). exact (Hi _ _ Hx).
Qed.

(** *** What was uploaded is what is served *)
Lemma serial_uploaded s l s' w k d : serial s l s' -> (w, Cmd Upload k d, Resp (Some (bs "public key added successfully")) None) ∈ l ->
  exists c r, parse_verified_key d = Some c /\ krecord s' k r /\ certificate_text r = serialise c /\ subject r = vPublic c.
Proof.
  induction 1 as [s|s l s1 w' c r s2 H IH Sv]; intros E; [apply elem_of_nil in E as []|].
  assert (serial s (l ++ [(w', c, r)]) s2) as H2 by (econstructor; eauto).
  apply elem_of_app in E as [E|E].
  - destruct (IH E) as (v & x & Pv & K & T). exists v, x. split; [exact Pv|]. split; [|exact T].
    assert (serial s1 ([] ++ [(w', c, r)]) s2) as S1 by (econstructor; [constructor|exact Sv]).
    apply serial_keeps in S1 as (_ & _ & _ & X & _). apply X. exact K.
  - apply elem_of_list_singleton in E. injection E as <- <- <-.
    inversion Sv as [| | | | | | | | |k' d' v n s3 Nk Pv Im A|]; subst. exists v. eexists. split; [exact Pv|].
    split; [apply (added_record _ _ _ _ _ _ A); left; auto|]. destruct v. auto.
Qed.
Lemma srv_uploaded path ks0 f now tr v w k d : built ks0 -> runs path (serving ks0 f now) tr v ->
  (w, Cmd Upload k d, Resp (Some (bs "public key added successfully")) None) ∈ dones tr ->
  exists c, parse_verified_key d = Some c /\ k <> bs "self" /\
    forall x r s', served (vKs v) (Cmd Public k x) r s' -> r = Resp (Some (serialise c)) None /\
      (served (vKs v) (Cmd Fingerprint k x) (Resp (Some (fingerprint_of (vPublic c))) None) (vKs v)).
Proof.
  intros B R H. pose proof (sinv_runs _ _ _ _ _ _ B R) as I.
  destruct (serial_uploaded _ _ _ _ _ _ (si_serial _ _ _ I) H) as (c & r & Pc & K & T & S). exists c. split; [exact Pc|].
  pose proof (kwell_label _ _ _ (ki_well _ (built_inv _ (si_built _ _ _ I))) K) as [N _]. split; [exact N|].
  assert (k <> []) as Nk.
  { intros ->. apply elem_of_list_split in H as (p & q & E). destruct (serial_split _ _ _ _ _ _ (si_serial _ _ _ I) E) as (s1 & s2 & _ & Sv).
    cbn [fst snd] in Sv. inversion Sv; subst. congruence. }
  intros x r' s' Sv. split; [|rewrite <- S; apply sv_print; assumption].
  inversion Sv as [|l r0 d0 N0 K0|l d0 N0 P0| | | | | | | |]; subst; try congruence.
  - rewrite (krecord_fun _ _ _ _ K0 K), T. reflexivity.
  - exfalso. apply P0. destruct K as (m & E & K). exists m, (Some r). auto.
Qed.

(** *** Once the ten minutes have passed, the store can be written *)
Lemma write_on path : forall k v d n, (length d - n = k)%nat -> (n <= length d)%nat -> vUp v = true -> vDisp v = DWrite d n ->
  exists tr' v', runs path v tr' v' /\ vUp v' = true /\ vDisp v' = DWrite d (length d) /\ vKs v' = vKs v.
Proof.
  induction k as [|k IH]; intros v d n Hk Hn U D.
  - assert (n = length d) as -> by lia. exists [], v. split; [constructor|auto].
  - assert (n < length d)%nat as Hl by lia. pose proof (st_write path v d n U D Hl) as St.
    destruct (IH (with_disp (with_files v (<[path := take (S n) d]> (vFs v))) (DWrite d (S n))) d (S n)) as (tr' & v' & R & Q); [lia|lia|exact U|reflexivity|].
    eexists _, v'. split; [eapply runs_app; [eapply runs_one; exact St|exact R]|exact Q].
Qed.
Lemma srv_can_write path v t : vUp v = true -> vDisp v = DSelect t -> t <= vNow v ->
  exists tr v1 v2, runs path v tr v1 /\ step path v1 (EWritten true) v2 /\ vKs v2 = vKs v.
Proof.
  intros U D T. pose proof (st_dump path v t U D T) as S1.
  destruct (write_on path _ (with_disp (with_files v (<[path := []]> (vFs v))) (DWrite (ks_dump (vKs v)) 0)) (ks_dump (vKs v)) 0 eq_refl ltac:(lia) U eq_refl) as (tr & v' & R & U' & D' & K).
  eexists _, v', _. split; [eapply runs_app; [eapply runs_one; exact S1|exact R]|]. split; [eapply st_written; eassumption|exact K].
Qed.

(** *** Starting *)
Lemma load_go_priv f path n1 n2 g s g' data : load_kstore f path true n1 n2 g = Ret (Some s, g') -> f !! path = Some data -> go_priv s.
Proof. intros H F. destruct (load_inv _ _ _ _ _ _ _ _ _ H F) as (_ & P & _). intros k E. congruence. Qed.
(** A file that is not there: the key generator panics, or there is no randomness. *)
Lemma start_missing f path pass n1 n2 n3 g w : f !! path = None ->
  (starved g 64 -> exists g', serve_load f path (Some pass) n1 n2 n3 g w = Ret (None, f, g')) /\
  (~ starved g 64 -> serve_load f path (Some pass) n1 n2 n3 g w = Panic).
Proof.
  intros F. destruct (load_new f path n1 n2 g F) as (A & B & _). unfold serve_load. split; intros S.
  - destruct (A S) as [g' ->]. cbn [obind]. eauto.
  - rewrite (B S). reflexivity.
Qed.
(** Starting never changes a file; what it serves is unlocked and its own. *)
Lemma start_inv f path pass n1 n2 n3 g w s f' g' : serve_load f path pass n1 n2 n3 g w = Ret (s, f', g') ->
  f' = f /\ forall s1, s = Some s1 -> exists data, f !! path = Some data /\ ready s1 /\ ksLocked s1 = false /\ healthy s1.
Proof.
  unfold serve_load. destruct pass as [pass|]; [|intros [= <- <- <-]; split; [reflexivity|discriminate]].
  destruct (f !! path) as [data|] eqn:F.
  2:{ destruct (load_new f path n1 n2 g F) as (A & B & _). intros H.
      destruct (delivers_or_starved g 64) as [(p & gp & Hp & D)|S].
      - rewrite B in H; [discriminate H|]. intros X. exact (X p gp Hp D).
      - destruct (A S) as [g1 E]. rewrite E in H. cbn [obind] in H. injection H as <- <- <-. split; [reflexivity|discriminate]. }
  destruct (load_kstore f path true n1 n2 g) as [[[s0|] g1]|] eqn:E; cbn [obind]; [|intros [= <- <- <-]; split; [reflexivity|discriminate]|discriminate].
  pose proof (load_go_priv _ _ _ _ _ _ _ _ E F) as G. destruct (load_inv _ _ _ _ _ _ _ _ _ E F) as (R & P & Lk & _).
  destruct (ks_valid_dec s0 G) as [[-> Hh]|[-> _]]; cbn [obind negb]; [|intros [= <- <- <-]; split; [reflexivity|discriminate]].
  destruct (ks_unlock n3 s0 pass) as [[b s1]|] eqn:U; cbn [obind]; [|discriminate].
  intros [= <- <- <-]. split; [reflexivity|]. intros s2 X. destruct b; [injection X as <-|discriminate X]. exists data. split; [reflexivity|].
  apply unlock_inv in U as [[-> [[=]|[_ L0]]]|(_ & _ & L0 & d & sg & e & v & _ & W & ->)].
  - split; [exact R|]. split; [exact L0|exact Hh].
  - split; [exact R|]. split; [reflexivity|]. split; [exact R|].
    assert (length (e ++ v) = 64%nat) as Hl by (destruct W as (_ & _ & W1 & W2); cbn [kPub full_priv pE pV arr] in *; rewrite app_length; lia).
    split; [exact Hl|]. intros _. eexists. split; [reflexivity|]. exists d, sg, e, v. auto.
Qed.
(** The server's own file: with the right passphrase everything is back. *)
Lemma start_again s f path pass n1 n2 n3 g w k : built s -> go_kstore s -> text_kstore s -> f !! path = Some (ks_dump s) ->
  unlock_key (octets_of (ksBlob s)) pass = Ret (Some k) -> ksBlob s <> None -> owns s k -> ksExport s <> None ->
  exists s', serve_load f path (Some pass) n1 n2 n3 g w = Ret (Some s', f, g) /\ same_public s s' /\ ksPriv s' = Some k /\ built s'.
Proof.
  intros B G T F U Nb O Ne. pose proof (built_inv s B) as [R W Ow Pv Tr].
  pose proof (load_dump s f path true n1 n2 g R G T F) as Ld.
  destruct (ksBlob s) as [blob|] eqn:Eb; [|contradiction].
  assert (ready (closed_copy s)) as R' by exact R.
  assert (ksLocked (closed_copy s) = true) as Lk by (unfold closed_copy; cbn [ksLocked]; rewrite Eb; reflexivity).
  assert (healthy (closed_copy s)) as Hh by (split; [exact R'|]; split; [exact Ow|]; rewrite Lk; discriminate).
  destruct O as (d & sg & e & v & -> & Wk & EO).
  assert (ks_unlock n3 (closed_copy s) pass = Ret (true, unlocked n3 (closed_copy s) d sg e v)) as Un.
  { apply unlock_finds; [exact R'|exact Lk|]. unfold closed_copy. cbn [ksBlob]. rewrite Eb. exact U. }
  exists (unlocked n3 (closed_copy s) d sg e v). unfold serve_load. rewrite F, Ld. cbn [obind].
  rewrite (proj2 (ks_valid_true (closed_copy s) ltac:(intros k [=])) Hh). cbn [obind negb]. rewrite Un. cbn [obind]. split; [reflexivity|].
  split.
  - unfold same_public, unlocked, closed_copy. kproj. split_and!; auto.
    + rewrite <- EO. unfold owner in *. destruct (ksPub s); [reflexivity|discriminate Ow].
    + destruct (ksExport s); [reflexivity|contradiction].
  - split; [reflexivity|]. eapply bt_unlock; [eapply (bt_reload f path true n1 n2 g s); eauto|exact Un|]. unfold unlocked, closed_copy, owner. kproj. cbn [octets_of]. rewrite <- EO. reflexivity.
Qed.
End WithCrypto.

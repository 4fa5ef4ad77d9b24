(** Facts about histories of a key store and about chains that never end. *)
From Verif Require Export KeyStoreLocks.
Local Open Scope Z_scope.

Section WithCrypto.
Context {C : Crypto} {L : CryptoLaws}.

(** *** Histories *)
Record kinv (s : kstore) : Prop := {
  ki_ready : ready s;
  ki_well : kwell s;
  ki_owner : length (owner s) = 64%nat;
  ki_priv : forall k, ksPriv s = Some k -> owns s k;
  ki_trust : forall l r, krecord s l r -> exists n, trusted_in s n l
}.
Lemma owns_owner s s' k : owner s' = owner s -> owns s k -> owns s' k.
Proof. intros E (d & sg & e & v & A & B & O). exists d, sg, e, v. rewrite E. auto. Qed.
Lemma kinv_same s s' : ksVersion s' = ksVersion s -> ksTime s' = ksTime s -> ksKeys s' = ksKeys s -> owner s' = owner s ->
  (forall k, ksPriv s' = Some k -> owns s k) -> kinv s -> kinv s'.
Proof.
  intros E1 E2 E3 E4 P [R W O Pv T].
  assert (forall l r, krecord s' l r <-> krecord s l r) as K by (intros; unfold krecord; rewrite E3; reflexivity).
  constructor.
  - unfold ready. rewrite E1, E2, E3. exact R.
  - intros m l v. rewrite E3. apply W.
  - rewrite E4. exact O.
  - intros k Ek. eapply owns_owner; eauto.
  - intros l r Kr. apply K in Kr. destruct (T _ _ Kr) as [n Tn]. exists n. clear Kr.
    induction Tn as [l0 r0 H Sg G|n l0 r0 l1 r1 H H' Sg NS G T0 IH].
    + apply (ti_owner s' l0 r0); [apply K; exact H|rewrite E4; exact Sg|rewrite E4; exact G].
    + apply (ti_signed s' n l0 r0 l1 r1); try (apply K; assumption); auto. rewrite E4. exact NS.
Qed.
Lemma owns_pub s k : owns s k -> exists e v, kPub k = Some (PubKey (Some e) (Some v)) /\ length e = 32%nat /\ length v = 32%nat /\ owner s = e ++ v.
Proof.
  intros (d & sg & e & v & -> & W & O). exists e, v. destruct W as (_ & _ & W1 & W2). cbn [kPub pE pV arr] in *. auto.
Qed.
Lemma owns_verify s k p data sig : owns s k -> kPub k = Some p -> verify (Some p) data sig = Ret true -> checks (owner s) data sig.
Proof.
  intros O Ep V. destruct (owns_pub s k O) as (e & v & Ep' & He & Hv & EO). rewrite Ep in Ep'. injection Ep' as ->.
  apply verify_exact in V as (e' & v' & [= <- <-] & Hs & V). rewrite EO. split; [rewrite app_length; lia|]. split; [exact Hs|].
  rewrite drop_app_alt by auto. exact V.
Qed.
Lemma new_kstore_exact now now2 k s : new_kstore now now2 (Some k) = Ret (Some s) <->
  exists d sg e v, k = full_priv d sg e v /\
    s = KStore 1 now2 (Some ∅) None (Some (e ++ v))
          (Some (serialise (VKey (e ++ v) (e ++ v) now (ed_sign sg ((e ++ v) ++ (e ++ v) ++ be 8 (now mod 2 ^ 64)))))) (Some k) false.
Proof.
  unfold new_kstore. split.
  - destruct (priv_valid (Some k)) eqn:V; cbn [negb]; [|discriminate].
    apply priv_valid_iff in V as (d & sg & e & v & [= ->]). cbn [deref obind kPub full_priv]. rewrite marshal_full. cbn [obind].
    rewrite (certify_full d sg e v). cbn [obind]. intros H. injection H as <-. exists d, sg, e, v. auto.
  - intros (d & sg & e & v & -> & ->). reflexivity.
Qed.
Lemma owns_go_priv s : (forall k, ksPriv s = Some k -> owns s k) -> go_priv s.
Proof. intros H k E. destruct (H k E) as (d & sg & e & v & -> & W & _). exact W. Qed.
Lemma added_kinv s l r s' n : kinv s -> l <> bs "self" -> ~ kpresent s l -> added s l r s' -> krLabel r = l ->
  (signer r = owner s /\ good_under r (owner s) \/
   signer r <> owner s /\ exists l' r', krecord s l' r' /\ signer r = subject r' /\ good_under r (subject r') /\ trusted_in s n l') -> kinv s'.
Proof.
  intros [R W O Pv T] N P A Lr How.
  assert (owner s' = owner s) as EO by (destruct A as (m & _ & ->); reflexivity).
  assert (forall k x, krecord s k x -> krecord s' k x) as K.
  { intros k0 x H. apply (added_record _ _ _ _ _ _ A). right. split; [|exact H]. intros ->. apply P.
    destruct H as (m & E & H). exists m, (Some x). auto. }
  constructor.
  - eapply added_ready; eauto.
  - eapply added_kwell; eauto.
  - rewrite EO. exact O.
  - intros k Ek. apply (owns_owner s); [exact EO|]. apply Pv. destruct A as (m & _ & ->). exact Ek.
  - intros k x H. pose proof H as H0. apply (added_record _ _ _ _ _ _ A) in H0 as [[-> ->]|[_ H0]].
    + destruct How as [(Sg & G)|(Sg & l' & r' & K' & E & G & T')].
      * exists 1%nat. apply (ti_owner s' l r); [exact H|rewrite EO; exact Sg|rewrite EO; exact G].
      * exists (S n). apply (ti_signed s' n l r l' r'); auto; [rewrite EO; exact Sg|]. eapply added_trusted_in; eauto.
    + destruct (T _ _ H0) as [m Tm]. exists m. eapply added_trusted_in; eauto.
Qed.
Lemma import_kinv o1 o2 now s l data b s' : kinv s -> an_order s o1 -> an_order s o2 ->
  import_verified o1 o2 now s l data = Ret (b, s') -> kinv s'.
Proof.
  intros I O1 O2 H. destruct b; [|apply import_false_unchanged in H as ->; exact I].
  pose proof I as [R W O Pv T].
  apply import_sound in H as (v & _ & (_ & N & P & Ce & Who) & A); try assumption.
  destruct Who as [S|(S & l' & r' & K & E & _)].
  - eapply (added_kinv s l _ s' 0); eauto. left. split; [exact S|]. unfold good_under. cbn [subject signature krKeys krSig krSigTime octets_of].
    unfold subject, signature. cbn [krKeys krSig krSigTime octets_of]. rewrite <- S. exact Ce.
  - destruct (T _ _ K) as [n Tn]. eapply (added_kinv s l _ s' n); eauto. right. split; [exact S|]. exists l', r'.
    split; [exact K|]. split; [symmetry; exact E|]. split; [|exact Tn].
    unfold good_under, subject at 1, signature. cbn [krKeys krSig krSigTime octets_of]. rewrite E. exact Ce.
Qed.
Lemma built_inv s : built s -> kinv s.
Proof.
  induction 1 as [now now2 k s Wk Nt H|now now2 s l peer md b s' B I H|o1 o2 now s l data b s' B I O1 O2 H
    |o1 o2 now s l data b s' B I O1 O2 H|s b s' z B I H|s pass g b s' z g' B I H|now s pass b s' B I H EO
    |f path orNew now now2 g s s' g' B I G T F H].
  - apply new_kstore_exact in H as (d & sg & e & v & -> & ->). constructor.
    + split; [reflexivity|]. split; [exact Nt|]. discriminate.
    + intros m l x [= <-] H. rewrite lookup_empty in H. discriminate H.
    + destruct Wk as (_ & _ & W1 & W2). cbn [kPub full_priv pE pV arr] in *. unfold owner. cbn [ksPub octets_of]. rewrite app_length. lia.
    + intros k [= <-]. exists d, sg, e, v. auto.
    + intros l r (m & [= <-] & H). rewrite lookup_empty in H. discriminate H.
  - apply add_inv in H as [[_ ->]|(_ & R & N & P & Lk & Hp & k & p & sig & Ek & Ep & Vp & V & Sg & A)]; [exact I|].
    eapply (added_kinv s l _ s' 0); eauto. left. split; [reflexivity|].
    apply (owns_verify s k p) in V; [exact V| |exact Ep]. apply (ki_priv s I). exact Ek.
  - exact (import_kinv _ _ _ _ _ _ _ _ I O1 O2 H).
  - unfold import_verified_key in H. destruct (pem_decode data) as [[ty body]|]; [|injection H as _ <-; exact I].
    case_decide; [injection H as _ <-; exact I|]. exact (import_kinv _ _ _ _ _ _ _ _ I O1 O2 H).
  - pose proof (owns_go_priv s (ki_priv s I)) as G. destruct (lock_exact s G) as (H1 & H2 & H3).
    destruct (ks_valid_dec s G) as [[_ Hh]|[_ Hh]]; [|rewrite H1 in H by assumption; injection H as _ <- _; exact I].
    destruct (ksLocked s) eqn:Lk; [rewrite H2 in H by auto; injection H as _ <- _; exact I|].
    destruct (H3 Hh eq_refl) as (k & z' & Ek & _ & E). rewrite E in H. injection H as _ <- _.
    eapply kinv_same; [..|exact I]; try reflexivity. discriminate.
  - pose proof (owns_go_priv s (ki_priv s I)) as G. unfold ks_lock_with in H.
    destruct (ks_valid s) as [[|]|]; cbn [obind negb] in H; try discriminate H; [|injection H as _ <- _ _; exact I].
    destruct (ksLocked s); [injection H as _ <- _ _; exact I|].
    destruct (lock_key (ksPriv s) pass g) as [[blob g1]|]; cbn [obind] in H; [|discriminate H].
    destruct blob as [blob|].
    + cbn [with_blob ksPriv] in H. destruct (priv_zero (ksPriv s)) as [z1|]; cbn [obind] in H; [|discriminate H].
      injection H as _ <- _ _. eapply kinv_same; [..|exact I]; try reflexivity. discriminate.
    + injection H as _ <- _ _. eapply kinv_same; [..|exact I]; try reflexivity. apply (ki_priv s I).
  - apply unlock_inv in H as [[-> _]|(_ & _ & _ & d & sg & e & v & _ & W & ->)]; [exact I|].
    eapply kinv_same; [..|exact I]; try reflexivity; [exact EO|].
    intros k [= <-]. exists d, sg, e, v. split; [reflexivity|]. split; [exact W|]. rewrite <- EO. reflexivity.
  - rewrite (load_dump s) in H; try assumption; [|exact (ki_ready s I)]. injection H as <- <-.
    eapply kinv_same; [..|exact I]; try reflexivity. discriminate.
Qed.
Lemma trusted_in_trusted s n l : trusted_in s n l -> trusted s l.
Proof. induction 1; [eapply tr_owner; eauto|eapply tr_signed; eauto]. Qed.
Lemma bounded_trust s (labels : korder) : (forall l v, (l, v) ∈ labels -> exists k, trusted_in s k l) ->
  exists n, forall l v, (l, v) ∈ labels -> exists k, (k <= n)%nat /\ trusted_in s k l.
Proof.
  induction labels as [|[l v] labels IH]; intros H; [exists 0%nat; intros l v I; inversion I|].
  destruct IH as [n Hn]; [intros l' v' I; eapply H; right; exact I|].
  destruct (H l v) as [k T]; [left|]. exists (Nat.max n k). intros l' v' I. apply elem_of_cons in I as [[= -> ->]|I].
  - exists k. split; [lia|exact T].
  - destruct (Hn _ _ I) as (k' & Hk & T'). exists k'. split; [lia|exact T'].
Qed.
Lemma built_complete s : built s -> distinct_keys s -> exists n, forall f, (n <= f)%nat ->
  (forall l os, kpresent s l -> orders s os -> verify_chain os f s l = Ret (Some true)) /\
  (forall os labels, (forall i, orders s (os i)) -> an_order s labels -> key_audit os f s labels = Ret (Some true)).
Proof.
  intros B D. pose proof (built_inv s B) as [R W O Pv T].
  assert (exists m, ksKeys s = Some m) as [m E] by (destruct (ksKeys s) eqn:E; [eauto|destruct R as (_ & _ & []); assumption]).
  destruct (bounded_trust s (map_to_list m)) as [n Hn].
  { intros l v I. apply elem_of_map_to_list in I. destruct (kwell_record s m l v W E I) as (_ & r & -> & _ & K). eauto. }
  exists n. intros f Hf. split.
  - intros l os (m' & v & E' & H) Os. rewrite E in E'. injection E' as <-.
    destruct (Hn l v) as (k & Hk & Tk); [apply elem_of_map_to_list; exact H|].
    eapply verify_chain_complete; eauto. lia.
  - intros os labels Os (m' & E' & P). rewrite E in E'. injection E' as <-. unfold key_audit.
    rewrite (proj2 (ks_quick_iff s)) by assumption. cbn [negb]. eapply audit_complete; eauto.
    intros l v I. apply (Hn l v). rewrite <- P. exact I.
Qed.

(** *** Chains that never end *)
Lemma follows_step s l l' : ready s -> follows s l l' -> exists o, an_order s o /\ verify_key_signature o s l = Ret (Some l').
Proof.
  intros R (N & N' & r & k & v & r' & K & S & Kv & Sv & Lv & K' & G).
  destruct (find_loop_first s k v Kv) as (o & O & F). rewrite Sv, Lv in F. exists o. split; [exact O|].
  rewrite (vks_signed _ s l r) by assumption. rewrite F. cbn [obind]. rewrite (keys_of_record s l' r') by assumption. cbn [obind].
  rewrite bool_decide_eq_true_2 by exact G. reflexivity.
Qed.
Lemma step_follows s o l l' : ready s -> an_order s o -> l <> bs "self" -> l' <> bs "self" ->
  verify_key_signature o s l = Ret (Some l') -> follows s l l'.
Proof.
  intros R O N N' V. destruct (vks_inv _ _ _ _ R N V) as (r & K & [(S & E & G)|(S & F & r' & K' & G)]); [congruence|].
  destruct (find_loop_record s o _ _ O F) as (k & v & Kv & Sv & Lv).
  split; [exact N|]. split; [exact N'|]. exists r, k, v, r'. auto 10.
Qed.
(** Running along a path. *)
Lemma path_run s n a b : ready s -> nsteps (follows s) n a b -> exists g : nat -> korder, (forall i, an_order s (g i)) /\
  forall os i, (forall j, (j < n)%nat -> os (i + j)%nat = g j) ->
    (forall f, (f <= n)%nat -> chain_loop os f i s a = Ret None) /\
    (forall f, chain_loop os (n + f) i s a = chain_loop os f (i + n) s b).
Proof.
  intros R P. induction P as [a|n a b c St P IH].
  - assert (exists o, an_order s o) as [o O].
    { destruct (ksKeys s) as [m|] eqn:EK; [|destruct R as (_ & _ & []); assumption]. exists (map_to_list m), m. auto. }
    exists (fun _ => o). split; [auto|]. intros os i _. split.
    + intros f Hf. replace f with 0%nat by lia. reflexivity.
    + intros f. cbn [Nat.add]. rewrite Nat.add_0_r. reflexivity.
  - destruct IH as (g & Og & Hg). destruct (follows_step s a b R St) as (o & O & V).
    exists (fun j => match j with 0%nat => o | Datatypes.S j => g j end). split; [intros [|i]; auto|].
    intros os i E. destruct (Hg os (Datatypes.S i)) as [H1 H2].
    { intros j Hj. specialize (E (Datatypes.S j) ltac:(lia)). cbn in E. rewrite <- E. f_equal. lia. }
    pose proof (E 0%nat ltac:(lia)) as E0. rewrite Nat.add_0_r in E0.
    assert (b <> self) as Nb by (destruct St as (_ & N & _); exact N).
    split.
    + intros [|f] Hf; [reflexivity|]. cbn [chain_loop]. rewrite E0, V. cbn [obind]. rewrite decide_False by exact Nb. apply H1. lia.
    + intros f. cbn [Nat.add chain_loop]. rewrite E0, V. cbn [obind]. rewrite decide_False by exact Nb.
      rewrite H2. f_equal. lia.
Qed.
Lemma cycle_runs s l c : ready s -> rtc (follows s) l c -> tc (follows s) c c ->
  exists os, orders s os /\ forall f, chain_loop os f 0 s l = Ret None.
Proof.
  intros R P1 P2. apply rtc_nsteps in P1 as [n P1]. apply tc_nsteps in P2 as (m & Hm & P2).
  destruct (path_run s n l c R P1) as (g1 & O1 & H1). destruct (path_run s m c c R P2) as (g2 & O2 & H2).
  set (os := fun i => if decide (i < n)%nat then g1 i else g2 ((i - n) mod m)%nat).
  assert (forall q f, chain_loop os f (n + q * m) s c = Ret None) as Hc.
  { intros q f. revert q. induction f as [f IH] using lt_wf_ind. intros q.
    destruct (H2 os (n + q * m)%nat) as [A B].
    { intros j Hj. unfold os. rewrite decide_False by lia. f_equal. replace (n + q * m + j - n)%nat with (j + q * m)%nat by lia.
      rewrite Nat.mod_add by lia. apply Nat.mod_small. exact Hj. }
    destruct (decide (f <= m)%nat) as [D|D]; [apply A; exact D|].
    replace f with (m + (f - m))%nat by lia. rewrite B. replace (n + q * m + m)%nat with (n + Datatypes.S q * m)%nat by lia.
    apply IH. lia. }
  exists os. split; [intros i; unfold os; case_decide; auto|]. intros f.
  destruct (H1 os 0%nat) as [A B].
  { intros j Hj. unfold os. cbn [Nat.add]. rewrite decide_True by exact Hj. reflexivity. }
  destruct (decide (f <= n)%nat) as [D|D]; [apply A; exact D|].
  replace f with (n + (f - n))%nat by lia. rewrite B. specialize (Hc 0%nat (f - n)%nat). rewrite Nat.add_0_r in Hc. exact Hc.
Qed.
Lemma forever_step os i s l : ready s -> orders s os -> l <> bs "self" -> (forall f, chain_loop os f i s l = Ret None) ->
  exists l', follows s l l' /\ forall f, chain_loop os f (S i) s l' = Ret None.
Proof.
  intros R O N H. pose proof (H 1%nat) as H1. cbn [chain_loop] in H1.
  destruct (verify_key_signature (os i) s l) as [[l'|]|] eqn:V; cbn [obind] in H1; try discriminate H1.
  case_decide as D; [discriminate H1|]. exists l'. split; [apply (step_follows s (os i)); auto|].
  intros f. specialize (H (Datatypes.S f)). cbn [chain_loop] in H. rewrite V in H. cbn [obind] in H. rewrite decide_False in H by exact D. exact H.
Qed.
Lemma forever_cycle os s m : ready s -> orders s os -> ksKeys s = Some m ->
  forall n (V : gset bytes) i l, size (dom m ∖ V) = n -> l <> bs "self" -> (forall f, chain_loop os f i s l = Ret None) ->
    (forall v, v ∈ V -> tc (follows s) v l) -> exists c, rtc (follows s) l c /\ tc (follows s) c c.
Proof.
  intros R O Em n. induction n as [n IH] using lt_wf_ind. intros V i l Hn N H HV.
  destruct (decide (l ∈ V)) as [D|D]; [exists l; split; [constructor|auto]|].
  destruct (forever_step os i s l R O N H) as (l' & F & H').
  assert (l ∈ dom m) as Hd.
  { destruct F as (_ & _ & r & _ & _ & _ & (m' & E & K) & _). rewrite Em in E. injection E as <-. apply elem_of_dom. eauto. }
  assert (l' <> bs "self") as N' by (destruct F as (_ & N' & _); exact N').
  destruct (IH (size (dom m ∖ ({[l]} ∪ V))) ltac:(
      rewrite <- Hn; apply subset_size; set_solver) ({[l]} ∪ V) (S i) l' eq_refl N' H') as (c & Pc & Cc).
  { intros v Hv. apply elem_of_union in Hv as [Hv|Hv].
    - apply elem_of_singleton in Hv as ->. apply tc_once. exact F.
    - eapply tc_r; [apply HV; exact Hv|exact F]. }
  exists c. split; [|exact Cc]. eapply rtc_l; eauto.
Qed.
Lemma never_ends s l : (exists os, orders s os /\ forall f, verify_chain os f s l = Ret None) <->
  ready s /\ l <> bs "self" /\ exists c, rtc (follows s) l c /\ tc (follows s) c c.
Proof.
  split.
  - intros (os & O & H). pose proof H as HH. unfold verify_chain in H. destruct (ks_quick s) eqn:Q; cbn [negb orb] in H; [|specialize (H 0%nat); discriminate H].
    destruct (ks_has s l); cbn [negb] in H; [|specialize (H 0%nat); discriminate H].
    case_decide as D; [specialize (H 0%nat); discriminate H|]. apply ks_quick_iff in Q.
    split; [exact Q|]. split; [exact D|].
    assert (exists m, ksKeys s = Some m) as [m E] by (destruct (ksKeys s) eqn:E; [eauto|destruct Q as (_ & _ & []); assumption]).
    eapply (forever_cycle os s m Q O E _ ∅ 0%nat l eq_refl D H). intros v Hv. set_solver.
  - intros (R & N & c & P & Cc). destruct (cycle_runs s l c R P Cc) as (os & O & H). exists os. split; [exact O|]. intros f.
    assert (exists l', follows s l l') as [l' F].
    { inversion P as [|x y z F P']; subst; [|eauto]. inversion Cc as [x y F|x y z F P']; subst; eauto. }
    destruct F as (_ & _ & r & _ & _ & _ & K & _).
    unfold verify_chain. rewrite (proj2 (ks_quick_iff s) R).
    rewrite (proj2 (ks_has_iff s l)); [|split; [exact R|right; apply kpresent_lookup; apply krecord_lookup in K; eauto]].
    cbn [negb orb]. rewrite decide_False by exact N. apply H.
Qed.
(** A record whose only possible signer is itself is searched for ever. *)
Lemma self_loop s l r : ready s -> kwell s -> distinct_keys s -> krecord s l r -> signer r = subject r -> good_under r (subject r) ->
  forall os f, orders s os -> verify_chain os f s l = Ret None.
Proof.
  intros R W D K Sg G os f O. pose proof (kwell_label _ _ _ W K) as [N Lr].
  unfold verify_chain. rewrite (proj2 (ks_quick_iff s) R).
  rewrite (proj2 (ks_has_iff s l)); [|split; [exact R|right; apply kwell_present; eauto]]. cbn [negb orb].
  rewrite decide_False by exact N. generalize 0%nat as i. induction f as [|f IH]; intros i; [reflexivity|]. cbn [chain_loop].
  rewrite (vks_signed _ s l r) by (try assumption; rewrite Sg; exact (proj2 D l r K)).
  rewrite (proj1 (find_loop_distinct s (os i) (signer r) W D (O i)) l r) by auto. cbn [obind].
  rewrite (keys_of_record s l r) by assumption. cbn [obind]. fold (subject r). rewrite bool_decide_eq_true_2 by exact G. cbn [obind].
  rewrite decide_False by exact N. apply IH.
Qed.
End WithCrypto.

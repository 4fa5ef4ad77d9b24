(** Facts about key stores: lookup, signatures, chains. *)
From Verif Require Export SpecKeyStore PublicFacts PemFacts DerFacts.
Local Open Scope Z_scope.

Lemma obytes_octets o : obytes o = octets_of o.
Proof. destruct o; reflexivity. Qed.
Lemma ks_quick_iff s : ks_quick s = true <-> ready s.
Proof. unfold ks_quick, ready, KeyStoreVersion. rewrite !andb_true_iff, !bool_decide_eq_true. tauto. Qed.
Lemma ks_quick_not s : ks_quick s = false <-> ~ ready s.
Proof. rewrite <- ks_quick_iff. destruct (ks_quick s); split; congruence. Qed.
Lemma kkeys_some s m : ksKeys s = Some m -> kkeys s = m.
Proof. unfold kkeys. intros ->. reflexivity. Qed.
Lemma krecord_lookup s l r : krecord s l r <-> kkeys s !! l = Some (Some r).
Proof.
  unfold krecord, kkeys. destruct (ksKeys s) as [m|]; cbn [from_option id].
  - split; [intros (m' & [= <-] & H); exact H|eauto].
  - rewrite lookup_empty. split; [intros (? & [=] & _)|discriminate].
Qed.
Lemma kpresent_lookup s l : kpresent s l <-> is_Some (kkeys s !! l).
Proof.
  unfold kpresent, kkeys, is_Some. destruct (ksKeys s) as [m|]; cbn [from_option id].
  - split; [intros (m' & v & [= <-] & H); eauto|intros [v H]; eauto].
  - rewrite lookup_empty. split; [intros (? & ? & [=] & _)|intros [? [=]]].
Qed.
Lemma krecord_fun s l r r' : krecord s l r -> krecord s l r' -> r = r'.
Proof. rewrite !krecord_lookup. congruence. Qed.
Lemma ks_has_iff s l : ks_has s l = true <-> ready s /\ (l = bs "self" \/ kpresent s l).
Proof.
  unfold ks_has. destruct (ks_quick s) eqn:Q; cbn [negb].
  - apply ks_quick_iff in Q. fold self. case_decide as D; [tauto|]. rewrite bool_decide_eq_true, kpresent_lookup. tauto.
  - apply ks_quick_not in Q. split; [discriminate|tauto].
Qed.
Lemma ks_has_not s l : ready s -> l <> bs "self" -> ~ kpresent s l -> ks_has s l = false.
Proof. intros R N P. apply not_true_iff_false. rewrite ks_has_iff. tauto. Qed.
Lemma keys_of_record s l r : krecord s l r -> keys_of s l = Ret (krKeys r).
Proof. rewrite krecord_lookup. intros H. unfold keys_of. rewrite H. reflexivity. Qed.
Lemma keys_of_inv s l k : keys_of s l = Ret k -> exists r, krecord s l r /\ k = krKeys r.
Proof.
  unfold keys_of. destruct (kkeys s !! l) as [[r|]|] eqn:E; try discriminate. intros [= <-].
  exists r. split; [|reflexivity]. apply krecord_lookup. exact E.
Qed.

(** *** Searching *)
Lemma find_loop_in o pub l : find_loop o pub = Ret (Some l) ->
  exists k v, (k, Some v) ∈ o /\ subject v = pub /\ krLabel v = l.
Proof.
  induction o as [|[k [v|]] o IH]; cbn [find_loop]; try discriminate. case_decide as D.
  - intros [= <-]. exists k, v. split; [left|]. unfold subject. rewrite <- obytes_octets. auto.
  - intros H. destruct (IH H) as (k' & v' & I & E). exists k', v'. split; [right; exact I|exact E].
Qed.
Lemma find_loop_none o pub : find_loop o pub = Ret None -> forall k v, (k, v) ∈ o -> exists r, v = Some r /\ subject r <> pub.
Proof.
  induction o as [|[k [v|]] o IH]; cbn [find_loop]; try discriminate.
  - intros _ k v I. inversion I.
  - case_decide as D; [discriminate|]. intros H k' v' I. apply elem_of_cons in I as [[= -> ->]|I]; [|eapply IH; eauto].
    exists v. split; [reflexivity|]. unfold subject. rewrite <- obytes_octets. congruence.
Qed.
Lemma an_order_in s o k v : an_order s o -> (k, Some v) ∈ o <-> krecord s k v.
Proof.
  intros (m & E & P). rewrite P, elem_of_map_to_list. unfold krecord. rewrite E. split; [eauto|]. intros (m' & [= <-] & H). exact H.
Qed.
Lemma find_loop_record s o pub l : an_order s o -> find_loop o pub = Ret (Some l) ->
  exists k v, krecord s k v /\ subject v = pub /\ krLabel v = l.
Proof.
  intros O F. apply find_loop_in in F as (k & v & I & E). exists k, v. split; [|exact E]. eapply an_order_in; eauto.
Qed.
(** Some order makes the search stop at a given record. *)
Lemma find_loop_first s k v : krecord s k v -> exists o, an_order s o /\ find_loop o (subject v) = Ret (Some (krLabel v)).
Proof.
  intros (m & E & H). exists ((k, Some v) :: map_to_list (delete k m)). split.
  - exists m. split; [assumption|]. rewrite <- (insert_id m k (Some v) H) at 2. rewrite <- insert_delete_insert.
    symmetry. apply map_to_list_insert, lookup_delete.
  - cbn [find_loop]. unfold subject. rewrite <- obytes_octets. rewrite decide_True by reflexivity. reflexivity.
Qed.
Lemma find_loop_total o pub : (forall k v, (k, v) ∈ o -> v <> None) -> exists r, find_loop o pub = Ret r.
Proof.
  induction o as [|[k [v|]] o IH]; intros H; cbn [find_loop]; [eauto| |].
  - case_decide; [eauto|]. apply IH. intros k' v' I. eapply H. right. exact I.
  - exfalso. eapply H; [left|reflexivity].
Qed.
Lemma kwell_record s m l v : kwell s -> ksKeys s = Some m -> m !! l = Some v -> l <> bs "self" /\ exists r, v = Some r /\ krLabel r = l /\ krecord s l r.
Proof.
  intros W E H. destruct (W m l v E H) as (N & r & -> & L). split; [assumption|]. exists r. split_and!; auto. exists m. auto.
Qed.
Lemma kwell_label s l r : kwell s -> krecord s l r -> l <> bs "self" /\ krLabel r = l.
Proof. intros W (m & E & H). destruct (W m l _ E H) as (N & r' & [= <-] & L). auto. Qed.
Lemma kwell_present s l : kwell s -> kpresent s l <-> exists r, krecord s l r.
Proof.
  intros W. split.
  - intros (m & v & E & H). destruct (kwell_record s m l v W E H) as (_ & r & -> & _ & K). eauto.
  - intros [r (m & E & H)]. exists m, (Some r). auto.
Qed.
(** With distinct keys the search has one answer. *)
Lemma find_loop_distinct s o pub : kwell s -> distinct_keys s -> an_order s o ->
  (forall l r, krecord s l r -> subject r = pub -> find_loop o pub = Ret (Some l)) /\
  ((forall l r, krecord s l r -> subject r <> pub) -> find_loop o pub = Ret None).
Proof.
  intros W [D _] O.
  assert (forall k v, (k, v) ∈ o -> v <> None) as NN.
  { destruct O as (m & E & P). intros k v I. rewrite P, elem_of_map_to_list in I.
    destruct (W m k v E I) as (_ & r & -> & _). discriminate. }
  destruct (find_loop_total o pub NN) as [[l'|] F].
  - destruct (find_loop_record s o pub l' O F) as (k & v & K & S & L). split.
    + intros l r R E. rewrite F. do 2 f_equal. rewrite <- L. rewrite (proj2 (kwell_label s k v W K)).
      eapply D; eauto. congruence.
    + intros H. exfalso. eapply H; eauto.
  - split; [|auto]. intros l r R E. exfalso.
    destruct (find_loop_none o pub F l (Some r)) as (r' & [= <-] & N); [|congruence].
    destruct O as (m & Em & P). destruct R as (m' & Em' & H). rewrite P, elem_of_map_to_list. congruence.
Qed.

Section WithCrypto.
Context `{C : Crypto} {L : CryptoLaws}.

(** *** Signatures *)
Definition checks (key data sig : bytes) : Prop :=
  length key = 64%nat /\ length sig = 64%nat /\ ed_verify (drop 32 key) data sig = true.
Global Instance checks_dec key data sig : Decision (checks key data sig).
Proof. unfold checks. apply _. Defined.
Lemma verify_checks key p data sig : unmarshal_public key = Some p -> verify (Some p) data sig = Ret (bool_decide (checks key data sig)).
Proof.
  intros U. apply unmarshal_public_exact in U as (e & v & He & Hv & -> & ->).
  destruct (verify_exact (Some (PubKey (Some e) (Some v))) data sig) as [[b Eb] T]. rewrite Eb. f_equal.
  destruct b.
  - symmetry. apply bool_decide_eq_true. apply T in Eb as (e' & v' & [= <- <-] & Hs & V).
    unfold checks. rewrite app_length. split; [lia|]. split; [assumption|]. rewrite drop_app_alt by auto. exact V.
  - symmetry. apply bool_decide_eq_false. intros (_ & Hs & V). rewrite drop_app_alt in V by auto.
    rewrite (proj2 T) in Eb; [discriminate|]. eauto 6.
Qed.
Lemma check_key key data sig :
  match unmarshal_public key with None => Ret false | Some p => verify (Some p) data sig end = Ret (bool_decide (checks key data sig)).
Proof.
  destruct (unmarshal_public key) as [p|] eqn:U.
  - apply verify_checks. exact U.
  - f_equal. symmetry. apply bool_decide_eq_false. intros (K & _).
    destruct (proj2 (unmarshal_public_total key) K) as [p E]. congruence.
Qed.
Lemma checks_certified subj key t sig : checks key (signature_data (VKey subj key t [])) sig <-> certified subj key t sig.
Proof. reflexivity. Qed.
Lemma checks_vkey v : checks (vSigner v) (signature_data v) (vSig v) <-> certified (vPublic v) (vSigner v) (vTime v) (vSig v).
Proof. reflexivity. Qed.

Lemma vks_owner o s l r : ready s -> l <> bs "self" -> krecord s l r -> signer r = owner s ->
  verify_key_signature o s l = Ret (if bool_decide (checks (owner s) (signature_data (VKey (subject r) (owner s) (krSigTime r) [])) (signature r)) then Some self else None).
Proof.
  intros R N K E. unfold verify_key_signature. apply ks_quick_iff in R. rewrite R. cbn [negb]. rewrite decide_False by exact N.
  apply krecord_lookup in K. rewrite K. unfold owner, subject, signer, signature in *. change obytes with octets_of.
  rewrite decide_True by exact E. cbn [obind].
  destruct (unmarshal_public (octets_of (ksPub s))) as [p|] eqn:U.
  - rewrite (verify_checks _ _ _ _ U). cbn [obind]. reflexivity.
  - rewrite bool_decide_eq_false_2; [reflexivity|]. intros (Hk & _).
    destruct (proj2 (unmarshal_public_total _) Hk) as [p E']. congruence.
Qed.
Lemma vks_signed o s l r : ready s -> l <> bs "self" -> krecord s l r -> signer r <> owner s ->
  verify_key_signature o s l =
    let! f := find_loop o (signer r) in
    match f with
    | None => Ret None
    | Some l' => let! k := keys_of s l' in
                 Ret (if bool_decide (checks (octets_of k) (signature_data (VKey (subject r) (octets_of k) (krSigTime r) [])) (signature r))
                      then Some l' else None)
    end.
Proof.
  intros R N K E. unfold verify_key_signature. apply ks_quick_iff in R. rewrite R. cbn [negb]. rewrite decide_False by exact N.
  apply krecord_lookup in K. rewrite K. unfold owner, subject, signer, signature in *. change obytes with octets_of.
  rewrite decide_False by exact E. unfold find_public. change obytes with octets_of. rewrite decide_False by exact E.
  destruct (find_loop o (octets_of (krSigner r))) as [[l'|]|]; cbn [obind]; [|reflexivity|reflexivity].
  destruct (keys_of s l') as [k|]; cbn [obind]; [|reflexivity].
  destruct (unmarshal_public (octets_of k)) as [p|] eqn:U.
  - rewrite (verify_checks _ _ _ _ U). cbn [obind]. reflexivity.
  - rewrite bool_decide_eq_false_2; [reflexivity|]. intros (Hk & _).
    destruct (proj2 (unmarshal_public_total _) Hk) as [p E']. congruence.
Qed.
Lemma vks_absent o s l : ready s -> l <> bs "self" -> (forall r, ~ krecord s l r) -> verify_key_signature o s l = Panic.
Proof.
  intros R N K. unfold verify_key_signature. apply ks_quick_iff in R. rewrite R. cbn [negb]. rewrite decide_False by exact N.
  destruct (kkeys s !! l) as [[r|]|] eqn:E; try reflexivity. exfalso. eapply K. apply krecord_lookup. exact E.
Qed.

(** What a successful check of one record means. *)
Lemma vks_inv o s l l' : ready s -> l <> bs "self" -> verify_key_signature o s l = Ret (Some l') ->
  exists r, krecord s l r /\
    ((signer r = owner s /\ l' = bs "self" /\ good_under r (owner s)) \/
     (signer r <> owner s /\ find_loop o (signer r) = Ret (Some l') /\ exists r', krecord s l' r' /\ good_under r (subject r'))).
Proof.
  intros R N V. destruct (kkeys s !! l) as [[r|]|] eqn:E.
  - assert (krecord s l r) as K by (apply krecord_lookup; exact E). exists r. split; [exact K|].
    destruct (decide (signer r = owner s)) as [S|S].
    + left. rewrite (vks_owner o s l r) in V by assumption. case_bool_decide as B; [|discriminate V]. injection V as <-. auto.
    + right. rewrite (vks_signed o s l r) in V by assumption.
      destruct (find_loop o (signer r)) as [[l2|]|] eqn:F; cbn [obind] in V; try discriminate V.
      destruct (keys_of s l2) as [k|] eqn:KE; cbn [obind] in V; [|discriminate V].
      case_bool_decide as B; [|discriminate V]. injection V as ->.
      apply keys_of_inv in KE as (r' & K' & ->). split; [assumption|]. split; [reflexivity|]. exists r'. split; [assumption|]. exact B.
  - rewrite vks_absent in V; [discriminate V|assumption|assumption|]. intros r K. apply krecord_lookup in K. congruence.
  - rewrite vks_absent in V; [discriminate V|assumption|assumption|]. intros r K. apply krecord_lookup in K. congruence.
Qed.

(** *** Soundness of trust *)
Lemma chain_sound os s : ready s -> orders s os -> (forall k r, krecord s k r -> krLabel r <> bs "self") ->
  forall f i l, l <> bs "self" -> chain_loop os f i s l = Ret (Some true) -> trusted s l.
Proof.
  intros R O NS. induction f as [|f IH]; intros i l N E; cbn [chain_loop] in E; [discriminate E|].
  destruct (verify_key_signature (os i) s l) as [[l'|]|] eqn:V; cbn [obind] in E; try discriminate E.
  destruct (vks_inv _ _ _ _ R N V) as (r & K & [(S & -> & G)|(S & F & r' & K' & G)]).
  - eapply tr_owner; eauto.
  - destruct (find_loop_record s _ _ _ (O i) F) as (k & v & Kv & _ & Lv).
    pose proof (NS _ _ Kv) as Nv. rewrite Lv in Nv.
    rewrite decide_False in E by exact Nv. apply (tr_signed s l r l' r' K K' G). eapply IH; [exact Nv|exact E].
Qed.
Lemma verify_chain_sound os f s l : orders s os -> (forall k r, krecord s k r -> krLabel r <> bs "self") ->
  verify_chain os f s l = Ret (Some true) -> l = bs "self" \/ trusted s l.
Proof.
  intros O NS E. unfold verify_chain in E. destruct (ks_quick s) eqn:Q; cbn [negb orb] in E; [|discriminate E].
  apply ks_quick_iff in Q. destruct (ks_has s l); cbn [negb] in E; [|discriminate E]. case_decide as D; [left; exact D|].
  right. eapply chain_sound; eauto.
Qed.
Lemma audit_sound os f s : (forall i, orders s (os i)) -> (forall k r, krecord s k r -> krLabel r <> bs "self") ->
  forall labels i, audit_loop os f i s labels = Ret (Some true) -> forall l v, (l, v) ∈ labels -> l = bs "self" \/ trusted s l.
Proof.
  intros O NS. induction labels as [|[l v] labels IH]; intros i E l' v' I; [inversion I|]. cbn [audit_loop] in E.
  destruct (verify_chain (os i) f s l) as [[[|]|]|] eqn:V; cbn [obind] in E; try discriminate E.
  apply elem_of_cons in I as [[= -> ->]|I]; [eapply verify_chain_sound; eauto|eapply IH; eauto].
Qed.
Lemma key_audit_sound os f s labels : (forall i, orders s (os i)) -> (forall k r, krecord s k r -> krLabel r <> bs "self") ->
  an_order s labels -> key_audit os f s labels = Ret (Some true) -> forall l, kpresent s l -> l = bs "self" \/ trusted s l.
Proof.
  intros O NS (m & E & P) A l (m' & v & E' & H). rewrite E in E'. injection E' as <-.
  unfold key_audit in A. destruct (ks_quick s); cbn [negb] in A; [|discriminate A].
  eapply audit_sound; eauto. rewrite P, elem_of_map_to_list. exact H.
Qed.

(** *** Completeness of trust *)
Inductive trusted_in (s : kstore) : nat -> bytes -> Prop :=
  | ti_owner l r : krecord s l r -> signer r = owner s -> good_under r (owner s) -> trusted_in s 1 l
  | ti_signed n l r l' r' : krecord s l r -> krecord s l' r' -> signer r = subject r' -> signer r <> owner s ->
      good_under r (subject r') -> trusted_in s n l' -> trusted_in s (S n) l.
Lemma chain_complete os s : ready s -> kwell s -> distinct_keys s -> orders s os ->
  forall n l, trusted_in s n l -> forall i f, (n <= f)%nat -> chain_loop os f i s l = Ret (Some true).
Proof.
  intros R W D O n l T. induction T as [l r K S G|n l r l' r' K K' S NS G T IH]; intros i f Hf;
    destruct f as [|f]; try lia; cbn [chain_loop]; pose proof (kwell_label _ _ _ W K) as [N _].
  - rewrite (vks_owner _ s l r) by assumption. rewrite bool_decide_eq_true_2 by exact G. cbn [obind].
    rewrite decide_True by reflexivity. reflexivity.
  - rewrite (vks_signed _ s l r) by assumption.
    rewrite (proj1 (find_loop_distinct s (os i) (signer r) W D (O i)) l' r') by auto. cbn [obind].
    rewrite (keys_of_record s l' r') by assumption. cbn [obind]. fold (subject r').
    rewrite bool_decide_eq_true_2 by exact G. cbn [obind].
    pose proof (kwell_label _ _ _ W K') as [N' _]. rewrite decide_False by exact N'. apply IH. lia.
Qed.
Lemma verify_chain_complete os s n l : kwell s -> distinct_keys s -> orders s os -> ready s -> trusted_in s n l ->
  forall f, (n <= f)%nat -> verify_chain os f s l = Ret (Some true).
Proof.
  intros W D O R T f Hf. unfold verify_chain. rewrite (proj2 (ks_quick_iff s)) by assumption.
  assert (exists r, krecord s l r) as [r K] by (destruct T; eauto).
  rewrite (proj2 (ks_has_iff s l)); [|split; [assumption|]; right; apply kwell_present; eauto]. cbn [negb orb].
  rewrite decide_False by exact (proj1 (kwell_label _ _ _ W K)). eapply chain_complete; eauto.
Qed.
Lemma audit_complete os f s n : kwell s -> distinct_keys s -> (forall i, orders s (os i)) -> ready s ->
  (n <= f)%nat -> forall labels i, (forall l v, (l, v) ∈ labels -> exists k, (k <= n)%nat /\ trusted_in s k l) ->
  audit_loop os f i s labels = Ret (Some true).
Proof.
  intros W D O R Hf. induction labels as [|[l v] labels IH]; intros i H; [reflexivity|]. cbn [audit_loop].
  destruct (H l v) as (k & Hk & T); [left|]. rewrite (verify_chain_complete _ s k l W D (O i) R T) by lia. cbn [obind].
  apply IH. intros l' v' I. eapply H. right. exact I.
Qed.

(** *** Adding records *)
Lemma put_key_added s l r s' : put_key s l r = Ret s' <-> added s l r s'.
Proof.
  unfold put_key, added. destruct (ksKeys s) as [m|].
  - split; [intros [= <-]; eauto|]. intros (m' & [= <-] & ->). reflexivity.
  - split; [discriminate|]. intros (? & [=] & _).
Qed.
Lemma added_record s l r s' k x : added s l r s' -> krecord s' k x <-> (k = l /\ x = r) \/ (k <> l /\ krecord s k x).
Proof.
  intros (m & E & ->). rewrite !krecord_lookup. unfold kkeys. rewrite E. cbn [ksKeys from_option id].
  destruct (decide (k = l)) as [-> | N].
  - rewrite lookup_insert. split; [intros [= ->]; auto|]. intros [[_ ->]|[? _]]; [reflexivity|congruence].
  - rewrite lookup_insert_ne by congruence. split; [auto|]. intros [[? _]|[_ H]]; [congruence|exact H].
Qed.
Lemma added_ready s l r s' : added s l r s' -> ready s -> ready s'.
Proof. intros (m & E & ->) (A & B & _). split; [exact A|]. split; [exact B|]. discriminate. Qed.
Lemma added_kwell s l r s' : added s l r s' -> l <> bs "self" -> krLabel r = l -> kwell s -> kwell s'.
Proof.
  intros (m & E & ->) N Lr W m' k v. cbn [ksKeys]. intros [= <-] H. destruct (decide (k = l)) as [-> | Nk].
  - rewrite lookup_insert in H. injection H as <-. split; [exact N|]. eauto.
  - rewrite lookup_insert_ne in H by congruence. eapply W; eauto.
Qed.
Lemma added_trusted_in s l r s' n k : added s l r s' -> ~ kpresent s l -> trusted_in s n k -> trusted_in s' n k.
Proof.
  intros A P. assert (forall k x, krecord s k x -> krecord s' k x) as K.
  { intros k0 x H. apply (added_record _ _ _ _ _ _ A). right. split; [|exact H]. intros ->. apply P.
    destruct H as (m & E & H). exists m, (Some x). auto. }
  assert (owner s' = owner s) as EO by (destruct A as (m & _ & ->); reflexivity).
  intros T. induction T as [k x H Sg G|n k x k' x' H H' Sg NS G T IH].
  - apply (ti_owner s' k x); [auto|rewrite EO; exact Sg|rewrite EO; exact G].
  - apply (ti_signed s' n k x k' x'); auto. rewrite EO. exact NS.
Qed.

Lemma import_inv o1 o2 now s l data b s' : import_verified o1 o2 now s l data = Ret (b, s') ->
  (b = false /\ s' = s) \/
  (b = true /\ ready s /\ l <> bs "self" /\ ~ kpresent s l /\ exists v who pub,
    parse_vkey data = Some v /\
    ((vSigner v = owner s /\ who = bs "self" /\ ksPub s = Some pub) \/
     (vSigner v <> owner s /\ find_loop o1 (vSigner v) = Ret (Some who) /\ exists r, krecord s who r /\ krKeys r = Some pub)) /\
    who <> [] /\ (exists w, verify_key_signature o2 s who = Ret (Some w)) /\
    checks pub (signature_data v) (vSig v) /\
    added s l (KRec l 1 now (Some (vPublic v)) (Some (vSig v)) (Some pub) (vTime v) None) s').
Proof.
  unfold import_verified. intros H.
  destruct (ks_quick s) eqn:Q; cbn [negb orb] in H; [|injection H as <- <-; auto].
  destruct (ks_has s l) eqn:Hs; cbn [orb] in H; [injection H as <- <-; auto|].
  apply ks_quick_iff in Q.
  assert (l <> bs "self" /\ ~ kpresent s l) as [N P].
  { apply not_true_iff_false in Hs. rewrite ks_has_iff in Hs. tauto. }
  destruct (parse_vkey data) as [v|] eqn:Pv; [|injection H as <- <-; auto].
  match type of H with obind ?e0 _ = _ => destruct e0 as [[[who pub]|]|] eqn:EW; cbn [obind] in H; try discriminate H end.
  2:{ injection H as <- <-. auto. }
  destruct pub as [pub|]; [|injection H as <- <-; auto].
  case_decide as D; [injection H as <- <-; auto|].
  destruct (verify_key_signature o2 s who) as [[w|]|] eqn:V; cbn [obind] in H; try discriminate H.
  2:{ injection H as <- <-. auto. }
  destruct (unmarshal_public pub) as [p|] eqn:U; [|injection H as <- <-; auto].
  rewrite (verify_checks _ _ _ _ U) in H. cbn [obind] in H.
  case_bool_decide as B; cbn [negb] in H; [|injection H as <- <-; auto].
  match type of H with obind ?e _ = _ => destruct e as [s2|] eqn:EP; cbn [obind] in H; try discriminate H end.
  injection H as <- <-. right. split; [reflexivity|]. split; [assumption|]. split; [exact N|]. split; [assumption|].
  exists v, who, pub. split; [reflexivity|]. split.
  { change obytes with octets_of in EW. fold (owner s) in EW. case_decide as DO.
    - injection EW as <- E. left. auto.
    - right. split; [assumption|]. unfold find_public in EW. change obytes with octets_of in EW. fold (owner s) in EW.
      rewrite decide_False in EW by assumption.
      destruct (find_loop o1 (vSigner v)) as [[l2|]|]; cbn [obind] in EW; try discriminate EW.
      destruct (keys_of s l2) as [k|] eqn:K; cbn [obind] in EW; [|discriminate EW]. injection EW as <- ->.
      apply keys_of_inv in K as (r & K & E). split; [reflexivity|]. exists r. auto. }
  split; [exact D|]. split; [eauto|]. split; [exact B|]. apply put_key_added. exact EP.
Qed.

Lemma vks_self o s : ready s -> verify_key_signature o s self = Ret (Some self).
Proof. intros R. unfold verify_key_signature. apply ks_quick_iff in R. rewrite R. cbn [negb]. rewrite decide_True by reflexivity. reflexivity. Qed.

(** Import succeeds under these conditions. *)
Lemma import_owner o1 o2 now s l data v : ready s -> l <> bs "self" -> ~ kpresent s l -> parse_vkey data = Some v ->
  vSigner v = owner s -> certified (vPublic v) (vSigner v) (vTime v) (vSig v) ->
  exists s', import_verified o1 o2 now s l data = Ret (true, s') /\
    added s l (KRec l 1 now (Some (vPublic v)) (Some (vSig v)) (Some (owner s)) (vTime v) None) s'.
Proof.
  intros R N P Pv Sg Ce. unfold import_verified. rewrite (proj2 (ks_quick_iff s) R), ks_has_not by assumption. cbn [negb orb].
  rewrite Pv. change obytes with octets_of. fold (owner s). rewrite decide_True by assumption. cbn [obind].
  assert (ksPub s = Some (owner s)) as EP.
  { destruct Ce as (Hl & _). rewrite Sg in Hl. unfold owner in *. destruct (ksPub s); [reflexivity|discriminate Hl]. }
  rewrite EP. rewrite decide_False by discriminate. rewrite vks_self by assumption. cbn [obind].
  destruct (unmarshal_public (owner s)) as [p|] eqn:U.
  2:{ exfalso. destruct Ce as (Hl & _). rewrite Sg in Hl. destruct (proj2 (unmarshal_public_total _) Hl) as [p E]. congruence. }
  rewrite (verify_checks _ _ _ _ U). cbn [obind]. rewrite bool_decide_eq_true_2.
  2:{ rewrite <- Sg. exact Ce. }
  cbn [negb]. destruct (ksKeys s) as [m|] eqn:EK; [|destruct R as (_ & _ & []); assumption].
  unfold put_key. rewrite EK. cbn [obind]. eexists. split; [reflexivity|]. exists m. split; [assumption|]. reflexivity.
Qed.
Lemma import_stored o1 o2 now s l data v who r w : ready s -> l <> bs "self" -> ~ kpresent s l -> parse_vkey data = Some v ->
  vSigner v <> owner s -> find_loop o1 (vSigner v) = Ret (Some who) -> krecord s who r -> subject r = vSigner v -> who <> [] ->
  verify_key_signature o2 s who = Ret (Some w) -> certified (vPublic v) (vSigner v) (vTime v) (vSig v) ->
  exists s', import_verified o1 o2 now s l data = Ret (true, s') /\
    added s l (KRec l 1 now (Some (vPublic v)) (Some (vSig v)) (Some (vSigner v)) (vTime v) None) s'.
Proof.
  intros R N P Pv Sg F K Sr Ne V Ce. unfold import_verified. rewrite (proj2 (ks_quick_iff s) R), ks_has_not by assumption. cbn [negb orb].
  rewrite Pv. unfold find_public. change obytes with octets_of. fold (owner s). rewrite !decide_False by assumption.
  rewrite F. cbn [obind]. rewrite (keys_of_record s who r K). cbn [obind].
  assert (krKeys r = Some (vSigner v)) as EP.
  { destruct Ce as (Hl & _). rewrite <- Sr in Hl. unfold subject in *. destruct (krKeys r); [cbn in Sr; congruence|discriminate Hl]. }
  rewrite EP, decide_False by assumption. rewrite V. cbn [obind].
  destruct (unmarshal_public (vSigner v)) as [p|] eqn:U.
  2:{ exfalso. destruct Ce as (Hl & _). destruct (proj2 (unmarshal_public_total _) Hl) as [p E]. congruence. }
  rewrite (verify_checks _ _ _ _ U). cbn [obind]. rewrite bool_decide_eq_true_2 by exact Ce.
  cbn [negb]. destruct (ksKeys s) as [m|] eqn:EK; [|destruct R as (_ & _ & []); assumption].
  unfold put_key. rewrite EK. cbn [obind]. eexists. split; [reflexivity|]. exists m. split; [assumption|]. reflexivity.
Qed.

(** One record checks, for some order, when it is endorsed; for every order when
    keys are distinct. *)
Lemma vks_endorsed o s l w : ready s -> kwell s -> an_order s o -> l <> bs "self" -> verify_key_signature o s l = Ret (Some w) -> endorsed s l.
Proof.
  intros R W O N V. destruct (vks_inv _ _ _ _ R N V) as (r & K & [(S & _ & G)|(S & F & r' & K' & G)]); exists r; (split; [exact K|]); [left; auto|].
  right. split; [exact S|]. exists w, r'. split; [exact K'|]. split; [|exact G].
  destruct (find_loop_record s o _ _ O F) as (k & v & Kv & Sv & Lv).
  rewrite (proj2 (kwell_label s k v W Kv)) in Lv. subst k. rewrite (krecord_fun _ _ _ _ K' Kv). exact Sv.
Qed.
Lemma endorsed_vks s l : ready s -> kwell s -> endorsed s l -> exists o w, an_order s o /\ verify_key_signature o s l = Ret (Some w).
Proof.
  intros R W (r & K & [(S & G)|(S & l' & r' & K' & E & G)]); pose proof (kwell_label _ _ _ W K) as [N _].
  - destruct (find_loop_first s l r K) as (o & O & _). exists o, self. split; [exact O|].
    rewrite (vks_owner _ s l r) by assumption. rewrite bool_decide_eq_true_2 by exact G. reflexivity.
  - destruct (find_loop_first s l' r' K') as (o & O & F). exists o, l'. split; [exact O|].
    rewrite (vks_signed _ s l r) by assumption. rewrite <- E, F. cbn [obind].
    rewrite (proj2 (kwell_label _ _ _ W K')), (keys_of_record s l' r') by assumption. cbn [obind].
    rewrite bool_decide_eq_true_2 by exact G. reflexivity.
Qed.
Lemma endorsed_vks_all o s l : ready s -> kwell s -> distinct_keys s -> an_order s o -> endorsed s l -> exists w, verify_key_signature o s l = Ret (Some w).
Proof.
  intros R W D O (r & K & [(S & G)|(S & l' & r' & K' & E & G)]); pose proof (kwell_label _ _ _ W K) as [N _].
  - exists self. rewrite (vks_owner _ s l r) by assumption. rewrite bool_decide_eq_true_2 by exact G. reflexivity.
  - exists l'. rewrite (vks_signed _ s l r) by assumption.
    rewrite (proj1 (find_loop_distinct s o (signer r) W D O) l' r') by assumption. cbn [obind].
    rewrite (keys_of_record s l' r') by assumption. cbn [obind]. rewrite bool_decide_eq_true_2 by exact G. reflexivity.
Qed.

Lemma import_sound o1 o2 now s l data s' : kwell s -> an_order s o1 -> an_order s o2 ->
  import_verified o1 o2 now s l data = Ret (true, s') ->
  exists v, parse_vkey data = Some v /\ importable s l v /\
    added s l (KRec l 1 now (Some (vPublic v)) (Some (vSig v)) (Some (vSigner v)) (vTime v) None) s'.
Proof.
  intros W O1 O2 H. apply import_inv in H as [[[=] _]|(_ & R & N & P & v & who & pub & Pv & Who & Ne & [w V] & Ck & A)].
  exists v. split; [exact Pv|].
  assert (pub = vSigner v) as ->.
  { destruct Who as [(S & _ & E)|(S & F & r & K & E)]; [rewrite S; unfold owner; rewrite E; reflexivity|].
    destruct (find_loop_record s o1 _ _ O1 F) as (k & x & Kx & Sx & Lx).
    rewrite (proj2 (kwell_label s k x W Kx)) in Lx. subst k. rewrite (krecord_fun _ _ _ _ K Kx) in E. unfold subject in Sx. rewrite E in Sx. exact Sx. }
  split; [|exact A]. split; [exact R|]. split; [exact N|]. split; [exact P|]. split; [exact Ck|].
  destruct Who as [(S & _ & E)|(S & F & r & K & E)]; [left; exact S|right]. split; [exact S|].
  exists who, r. split; [exact K|]. split; [unfold subject; rewrite E; reflexivity|]. split; [exact Ne|].
  eapply vks_endorsed; eauto. exact (proj1 (kwell_label _ _ _ W K)).
Qed.
Lemma import_possible now s l data v : kwell s -> parse_vkey data = Some v -> importable s l v ->
  exists o1 o2 s', an_order s o1 /\ an_order s o2 /\ import_verified o1 o2 now s l data = Ret (true, s').
Proof.
  intros W Pv (R & N & P & Ce & [S|(S & l' & r' & K & E & Ne & En)]).
  - assert (exists o, an_order s o) as [o O].
    { destruct (ksKeys s) as [m|] eqn:EK; [|destruct R as (_ & _ & []); assumption]. exists (map_to_list m), m. auto. }
    destruct (import_owner o o now s l data v) as (s' & I & _); try assumption. eauto 8.
  - destruct (endorsed_vks s l' R W En) as (o2 & w & O2 & V). destruct (find_loop_first s l' r' K) as (o1 & O1 & F).
    rewrite (proj2 (kwell_label _ _ _ W K)), E in F.
    destruct (import_stored o1 o2 now s l data v l' r' w) as (s' & I & _); try assumption. eauto 8.
Qed.
Lemma import_certain o1 o2 now s l data v : kwell s -> distinct_keys s -> an_order s o1 -> an_order s o2 ->
  parse_vkey data = Some v -> importable s l v -> exists s', import_verified o1 o2 now s l data = Ret (true, s').
Proof.
  intros W D O1 O2 Pv (R & N & P & Ce & [S|(S & l' & r' & K & E & Ne & En)]).
  - destruct (import_owner o1 o2 now s l data v) as (s' & I & _); try assumption. eauto.
  - destruct (endorsed_vks_all o2 s l' R W D O2 En) as (w & V).
    destruct (import_stored o1 o2 now s l data v l' r' w) as (s' & I & _); try assumption; [|eauto].
    eapply (proj1 (find_loop_distinct s o1 (vSigner v) W D O1)); eauto.
Qed.
Lemma import_false_unchanged o1 o2 now s l data s' : import_verified o1 o2 now s l data = Ret (false, s') -> s' = s.
Proof. intros H. apply import_inv in H as [[_ ->]|([=] & _)]. reflexivity. Qed.
(** Importing never panics on a store without nil records. *)
Lemma vks_total o s l : kwell s -> an_order s o -> ready s -> (l = bs "self" \/ kpresent s l) -> exists r, verify_key_signature o s l = Ret r.
Proof.
  intros W O R [-> | P]; [exists (Some self); apply vks_self; exact R|].
  apply (kwell_present s l W) in P as [r K]. pose proof (kwell_label _ _ _ W K) as [N _].
  destruct (decide (signer r = owner s)) as [S|S]; [rewrite (vks_owner o s l r) by assumption; eauto|].
  rewrite (vks_signed o s l r) by assumption.
  destruct (find_loop_total o (signer r)) as [[l'|] F].
  { destruct O as (m & E & Pm). intros k v I. rewrite Pm, elem_of_map_to_list in I.
    destruct (W m k v E I) as (_ & x & -> & _). discriminate. }
  - rewrite F. cbn [obind]. destruct (find_loop_record s o _ _ O F) as (k & v & Kv & Sv & Lv).
    rewrite (proj2 (kwell_label s k v W Kv)) in Lv. subst k. rewrite (keys_of_record s l' v) by assumption. cbn [obind]. eauto.
  - rewrite F. cbn [obind]. eauto.
Qed.
Lemma import_total o1 o2 now s l data : kwell s -> an_order s o1 -> an_order s o2 -> exists r, import_verified o1 o2 now s l data = Ret r.
Proof.
  intros W O1 O2. unfold import_verified. destruct (ks_quick s) eqn:Q; cbn [negb orb]; [|eauto].
  destruct (ks_has s l) eqn:Hs; [eauto|]. apply ks_quick_iff in Q.
  destruct (parse_vkey data) as [v|]; [|eauto].
  assert (exists who, (if decide (vSigner v = obytes (ksPub s)) then Ret (Some (self, ksPub s)) else
        let! f := find_public o1 s (vSigner v) in
        match f with
        | None => Ret None
        | Some l => let! k := keys_of s l in Ret (Some (l, k))
        end) = Ret who /\ (forall l k, who = Some (l, k) -> l = bs "self" \/ kpresent s l)) as (who & -> & Hw).
  { case_decide as D; [eexists; split; [reflexivity|]; intros l0 k [= <- _]; left; reflexivity|].
    unfold find_public. rewrite decide_False by exact D.
    destruct (find_loop_total o1 (vSigner v)) as [[l'|] F].
    { destruct O1 as (m & E & Pm). intros k x I. rewrite Pm, elem_of_map_to_list in I.
      destruct (W m k x E I) as (_ & y & -> & _). discriminate. }
    - rewrite F. cbn [obind]. destruct (find_loop_record s o1 _ _ O1 F) as (k & x & Kx & Sx & Lx).
      rewrite (proj2 (kwell_label s k x W Kx)) in Lx. subst k. rewrite (keys_of_record s l' x) by assumption. cbn [obind].
      eexists. split; [reflexivity|]. intros l0 k [= <- _]. right. apply kwell_present; eauto.
    - rewrite F. cbn [obind]. eexists. split; [reflexivity|]. discriminate. }
  cbn [obind]. destruct who as [[who [pub|]]|]; [|eauto|eauto]. case_decide; [eauto|].
  destruct (vks_total o2 s who W O2 Q) as [r ->]; [eapply Hw; reflexivity|]. cbn [obind]. destruct r; [|eauto].
  destruct (unmarshal_public pub) as [p|] eqn:U; [|eauto]. rewrite (verify_checks _ _ _ _ U). cbn [obind].
  case_bool_decide; cbn [negb]; [|eauto]. unfold put_key. destruct (ksKeys s) eqn:EK; [|destruct Q as (_ & _ & []); assumption].
  cbn [obind]. eauto.
Qed.

(** *** AddKey *)
Lemma add_inv now now2 s l peer md b s' : ks_add now now2 s l peer md = Ret (b, s') ->
  (b = false /\ s' = s) \/
  (b = true /\ ready s /\ l <> bs "self" /\ ~ kpresent s l /\ ksLocked s = false /\ length peer = 64%nat /\
   exists k p sig, ksPriv s = Some k /\ kPub k = Some p /\ pub_valid (Some p) = true /\
     verify (Some p) (peer ++ owner s ++ be 8 (now mod 2 ^ 64)) sig = Ret true /\
     sign (Some k) (peer ++ owner s ++ be 8 (now mod 2 ^ 64)) = Ret (Some sig) /\
     added s l (KRec l 0 now2 (Some peer) (Some sig) (ksPub s) now (Some (default ∅ md))) s').
Proof.
  unfold ks_add. intros H.
  destruct (ks_quick s) eqn:Q; cbn [negb] in H; [|injection H as <- <-; auto].
  destruct (ks_has s l) eqn:Hs; [injection H as <- <-; auto|].
  destruct (ksLocked s) eqn:Lk; [injection H as <- <-; auto|].
  apply ks_quick_iff in Q.
  assert (l <> bs "self" /\ ~ kpresent s l) as [N P].
  { apply not_true_iff_false in Hs. rewrite ks_has_iff in Hs. tauto. }
  destruct (unmarshal_public peer) as [pp|] eqn:U; [|injection H as <- <-; auto].
  change (signature_data (VKey peer (obytes (ksPub s)) now [])) with (peer ++ owner s ++ be 8 (now mod 2 ^ 64)) in H.
  set (data := peer ++ owner s ++ be 8 (now mod 2 ^ 64)) in *.
  destruct (sign (ksPriv s) data) as [[sig|]|] eqn:Sg; cbn [obind] in H; try discriminate H.
  2:{ injection H as <- <-. auto. }
  destruct (ksPriv s) as [k|] eqn:EK; cbn [deref obind] in H; [|discriminate H].
  assert (exists p, kPub k = Some p /\ pub_valid (Some p) = true) as (p & Ep & Vp).
  { destruct (priv_valid (Some k)) eqn:V.
    - apply priv_valid_iff in V as (d & sg & e & v & [= ->]). eexists. split; reflexivity.
    - rewrite (proj1 (sign_exact (Some k) data) V) in Sg. discriminate Sg. }
  rewrite Ep in H. destruct (verify (Some p) data sig) as [[|]|] eqn:V; cbn [obind negb] in H; try discriminate H.
  2:{ injection H as <- <-. auto. }
  match type of H with obind ?e _ = _ => destruct e as [s2|] eqn:EP; cbn [obind] in H; try discriminate H end.
  injection H as <- <-. right. split; [reflexivity|]. split; [assumption|]. split; [exact N|]. split; [assumption|].
  split; [reflexivity|]. split; [apply unmarshal_public_total; eauto|]. exists k, p, sig. split_and!; auto.
  apply put_key_added. exact EP.
Qed.
Lemma add_keypair now now2 s l peer md d seed : ready s -> ksLocked s = false -> ksPriv s = Some (keypair d seed) -> length seed = 32%nat ->
  l <> bs "self" -> ~ kpresent s l -> length peer = 64%nat ->
  exists s', ks_add now now2 s l peer md = Ret (true, s') /\
    added s l (KRec l 0 now2 (Some peer) (Some (ed_sign (seed ++ ed_pub seed) (peer ++ owner s ++ be 8 (now mod 2 ^ 64))))
                 (ksPub s) now (Some (default ∅ md))) s'.
Proof.
  intros R Lk Pk Hs N P Hp. unfold ks_add. rewrite (proj2 (ks_quick_iff s) R), ks_has_not, Lk by assumption. cbn [negb].
  destruct (proj2 (unmarshal_public_total peer) Hp) as [pp ->].
  change (signature_data (VKey peer (obytes (ksPub s)) now [])) with (peer ++ owner s ++ be 8 (now mod 2 ^ 64)).
  set (data := peer ++ owner s ++ be 8 (now mod 2 ^ 64)).
  rewrite Pk. destruct (sign_verify d seed data Hs) as (sig & Sg & _ & V).
  assert (sig = ed_sign (seed ++ ed_pub seed) data) as -> by (unfold sign in Sg; cbn in Sg; congruence).
  rewrite Sg. cbn [obind deref]. rewrite V. cbn [obind negb].
  destruct (ksKeys s) as [m|] eqn:EK; [|destruct R as (_ & _ & []); assumption].
  unfold put_key. rewrite EK. cbn [obind]. eexists. split; [reflexivity|]. exists m. auto.
Qed.
End WithCrypto.

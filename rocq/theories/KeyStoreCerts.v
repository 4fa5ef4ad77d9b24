(** Facts about certificates and messages of key stores. *)
From Verif Require Export KeyStoreRuns.
Local Open Scope Z_scope.

Lemma element_zlen tag c e : element tag c e -> zlen c < zlen e.
Proof. intros (l & _ & ->). unfold zlen. cbn [length]. rewrite app_length. lia. Qed.
Lemma parse_vkey_exact data v : parse_vkey data = Some v <-> der_certificate data (vPublic v) (vSigner v) (vTime v) (vSig v).
Proof.
  unfold der_certificate. split.
  - unfold parse_vkey. destruct (der_field TagSequence data) as [[c rest]|] eqn:E0; [|discriminate].
    destruct (der_field TagOctetString c) as [[p c1]|] eqn:E1; [|discriminate].
    destruct (der_field TagOctetString c1) as [[k c2]|] eqn:E2; [|discriminate].
    destruct (der_field TagInteger c2) as [[t c3]|] eqn:E3; [|discriminate].
    destruct (der_int64 t) as [ti|] eqn:E4; [|discriminate].
    destruct (der_field TagOctetString c3) as [[sig junk]|] eqn:E5; [|discriminate]. intros [= <-]. cbn [vPublic vSigner vTime vSig].
    apply der_field_exact in E0 as (H0 & e0 & X0 & ->), E1 as (_ & e1 & X1 & ->), E2 as (_ & e2 & X2 & ->), E3 as (_ & e3 & X3 & ->),
      E5 as (_ & e5 & X5 & ->). apply der_int64_exact in E4 as [R4 X4].
    exists e1, e2, e3, t, e5, junk, e0, rest. split_and!; auto; apply R4.
  - intros (p & k & t & ti & s & junk & body & rest & X1 & X2 & X4 & X3 & X5 & X0 & -> & R4 & H0).
    pose proof (element_zlen _ _ _ X1). pose proof (element_zlen _ _ _ X2). pose proof (element_zlen _ _ _ X3). pose proof (element_zlen _ _ _ X5).
    assert (forall a b : bytes, zlen (a ++ b) = zlen a + zlen b) as ZA by (intros; unfold zlen; rewrite app_length; lia).
    pose proof H0 as H0'. rewrite !ZA in H0'.
    pose proof (zlen_nonneg p). pose proof (zlen_nonneg k). pose proof (zlen_nonneg t). pose proof (zlen_nonneg s). pose proof (zlen_nonneg junk).
    unfold parse_vkey.
    rewrite (proj2 (der_field_exact TagSequence _ _ rest) (conj H0 (ex_intro _ body (conj X0 eq_refl)))).
    rewrite (proj2 (der_field_exact TagOctetString _ (vPublic v) (k ++ t ++ s ++ junk))); [|split; [lia|]; exists p; auto].
    rewrite (proj2 (der_field_exact TagOctetString _ (vSigner v) (t ++ s ++ junk))); [|split; [lia|]; exists k; auto].
    rewrite (proj2 (der_field_exact TagInteger _ ti (s ++ junk))); [|split; [lia|]; exists t; auto].
    rewrite (proj2 (der_int64_exact ti (vTime v)) (conj R4 X4)).
    rewrite (proj2 (der_field_exact TagOctetString _ (vSig v) junk)); [|split; [lia|]; exists s; auto].
    destruct v; reflexivity.
Qed.
Lemma der_length_bound n : (length (der_length n) <= 9)%nat.
Proof.
  unfold der_length. case_decide; [|cbn; lia]. cbn zeta. cbn [length]. rewrite length_be.
  assert (forall f i, (length_length f i <= S f)%nat) as X by (induction f as [|f IH]; intros i; cbn [length_length]; [lia|]; case_decide; [|lia]; specialize (IH (i / 256)); lia).
  specialize (X 7%nat n). lia.
Qed.
Lemma der_element_bound tag c : zlen (der_element tag c) <= zlen c + 10.
Proof. unfold der_element, zlen. cbn [length]. rewrite app_length. pose proof (der_length_bound (Z.of_nat (length c))). lia. Qed.
Lemma int_length_bound f i : (int_length f i <= S f)%nat.
Proof. revert i. induction f as [|f IH]; intros i; cbn [int_length]; [lia|]. case_decide; [|lia]. specialize (IH (i / 256)). lia. Qed.
Lemma parse_der_vkey v junk : small_vkey v -> parse_vkey (der_vkey v ++ junk) = Some v.
Proof.
  intros [R S]. apply parse_vkey_exact.
  pose proof (zlen_nonneg (vPublic v)). pose proof (zlen_nonneg (vSigner v)). pose proof (zlen_nonneg (vSig v)).
  pose proof (der_element_bound TagOctetString (vPublic v)). pose proof (der_element_bound TagOctetString (vSigner v)).
  pose proof (der_element_bound TagOctetString (vSig v)). pose proof (der_element_bound TagInteger (be (int_length 7 (vTime v)) (vTime v))) as BI.
  assert (zlen (be (int_length 7 (vTime v)) (vTime v)) <= 8) as BB by (unfold zlen; rewrite length_be; pose proof (int_length_bound 7 (vTime v)); lia).
  assert (forall a b : bytes, zlen (a ++ b) = zlen a + zlen b) as ZA by (intros; unfold zlen; rewrite app_length; lia).
  exists (der_octets (vPublic v)), (der_octets (vSigner v)), (der_int (vTime v)), (be (int_length 7 (vTime v)) (vTime v)), (der_octets (vSig v)), [], (der_vkey v), junk.
  assert (zlen (der_octets (vPublic v) ++ der_octets (vSigner v) ++ der_int (vTime v) ++ der_octets (vSig v) ++ []) < 2 ^ 31) as B.
  { rewrite !ZA. unfold der_octets, der_int. unfold zlen at 5. cbn [length]. lia. }
  split_and!; try apply element_eq; auto; try lia; try apply R.
  - apply int_contents_exists. exact R.
  - rewrite app_nil_r. reflexivity.
Qed.
Lemma VerifiedKeyType_ok : pem_type VerifiedKeyType.
Proof. split; apply (bool_decide_unpack _); vm_compute; exact I. Qed.
Lemma parse_serialise v : small_vkey v -> parse_verified_key (serialise v) = Some v.
Proof.
  intros S. unfold parse_verified_key, serialise. rewrite <- (app_nil_r (pem_encode _ _ _)).
  rewrite (pem_roundtrip VerifiedKeyType [] (der_vkey v) [] VerifiedKeyType_ok) by constructor.
  rewrite decide_False by auto. rewrite <- (app_nil_r (der_vkey v)). apply parse_der_vkey. exact S.
Qed.

Section WithCrypto.
Context {C : Crypto} {L : CryptoLaws}.
Lemma import_serialised o1 o2 now s l v junk : import_verified_key o1 o2 now s l (serialise v ++ junk) = import_verified o1 o2 now s l (der_vkey v).
Proof.
  unfold import_verified_key, serialise. rewrite (pem_roundtrip VerifiedKeyType [] (der_vkey v) junk VerifiedKeyType_ok) by constructor.
  rewrite decide_False by auto. reflexivity.
Qed.

(** A key pair certifying a key. *)
Lemma keypair_certifies d seed subj t : length seed = 32%nat ->
  certified subj (box_pub d ++ ed_pub seed) t (ed_sign (seed ++ ed_pub seed) (subj ++ (box_pub d ++ ed_pub seed) ++ be 8 (t mod 2 ^ 64))).
Proof.
  intros Hs. split; [rewrite app_length, box_pub_length, ed_pub_length; reflexivity|]. split; [apply ed_sign_length|].
  rewrite drop_app_alt by (symmetry; apply box_pub_length). apply ed_correct. exact Hs.
Qed.
Lemma length_pub_of d seed : length (pub_of d seed) = 64%nat.
Proof. unfold pub_of. rewrite app_length, box_pub_length, ed_pub_length. reflexivity. Qed.

(** *** Messages *)
Lemma pair_wf d seed : length d = 32%nat -> length seed = 32%nat -> wf_priv (keypair d seed).
Proof.
  intros Hd Hs. unfold wf_priv, wf_pub, arr, keypair. cbn [kD kS kPub pE pV].
  rewrite app_length, box_pub_length, ed_pub_length, Hd, Hs. auto.
Qed.
Lemma holds_pair_valid s d seed : length d = 32%nat -> length seed = 32%nat -> holds_pair s d seed -> ks_valid s = Ret true.
Proof.
  intros Hd Hs (R & Lk & Pk & O). apply ks_valid_true.
  - intros k E. rewrite Pk in E. injection E as <-. apply pair_wf; assumption.
  - split; [exact R|]. split; [rewrite O; apply length_pub_of|]. intros _. eexists. split; [exact Pk|].
    eexists _, _, _, _. split; [reflexivity|]. split; [apply pair_wf; assumption|exact O].
Qed.
Lemma knows_has s l d seed : ready s -> knows s l d seed -> ks_has s l = true.
Proof.
  intros R K. apply ks_has_iff. split; [exact R|]. destruct K as [(-> & _)|(_ & r & K & _)]; [left; reflexivity|right].
  apply kpresent_lookup. apply krecord_lookup in K. eauto.
Qed.
Lemma unmarshal_pub_of d seed : unmarshal_public (pub_of d seed) = kPub (keypair d seed).
Proof. apply unmarshal_public_exact. eexists _, _. split; [apply box_pub_length|]. split; [apply ed_pub_length|]. auto. Qed.
Lemma knows_public s l d seed : ready s -> knows s l d seed -> get_public s l = Ret (kPub (keypair d seed)).
Proof.
  intros R K. unfold get_public. rewrite (knows_has s l d seed R K). cbn [negb].
  destruct K as [(-> & Lk & Pk & O)|(N & r & K & E)].
  - rewrite decide_True, Lk, Pk by reflexivity. reflexivity.
  - rewrite decide_False by exact N. rewrite (keys_of_record s l r K). cbn [obind]. rewrite obytes_octets. fold (subject r). rewrite E, unmarshal_pub_of. reflexivity.
Qed.
Lemma ks_encrypt_to_eq s l d seed m g : ready s -> (l = bs "self" /\ owner s = pub_of d seed \/ l <> bs "self" /\ exists r, krecord s l r /\ subject r = pub_of d seed) ->
  ks_encrypt_to s l m g = pub_encrypt (kPub (keypair d seed)) m g.
Proof.
  intros R K. unfold ks_encrypt_to. rewrite (proj2 (ks_quick_iff s) R).
  rewrite (proj2 (ks_has_iff s l)).
  2:{ split; [exact R|]. destruct K as [[-> _]|(_ & r & K & _)]; [left; reflexivity|right]. apply kpresent_lookup. apply krecord_lookup in K. eauto. }
  cbn [negb orb]. destruct K as [[-> O]|(N & r & K & E)].
  - rewrite decide_True by reflexivity. cbn [obind]. rewrite obytes_octets. fold (owner s). rewrite O, unmarshal_pub_of. reflexivity.
  - rewrite decide_False by exact N. rewrite (keys_of_record s l r K). cbn [obind]. rewrite obytes_octets. fold (subject r). rewrite E, unmarshal_pub_of. reflexivity.
Qed.

(** *** The never-ending chain, made with the package's operations *)
Lemma removed_record s l k r : krecord (remove_key s l) k r <-> k <> l /\ krecord s k r.
Proof.
  unfold krecord, remove_key. cbn [ksKeys]. destruct (ksKeys s) as [m|]; cbn [option_map].
  - split.
    + intros (m' & [= <-] & H). apply lookup_delete_Some in H as [N H]. split; [congruence|]. eauto.
    + intros [N (m' & [= <-] & H)]. eexists. split; [reflexivity|]. rewrite lookup_delete_ne by congruence. exact H.
  - split; [intros (? & [=] & _)|intros [_ (? & [=] & _)]].
Qed.
Lemma loop_reachable d seed da sa n1 n2 n3 n4 n5 n6 n7 l1 l2 s0 sA :
  length d = 32%nat -> length seed = 32%nat -> length da = 32%nat -> length sa = 32%nat -> n2 <> 0 -> int64 n3 ->
  l1 <> bs "self" -> l1 <> [] -> l2 <> bs "self" -> l2 <> l1 -> pub_of da sa <> pub_of d seed ->
  new_kstore n1 n2 (Some (keypair d seed)) = Ret (Some s0) ->
  new_kstore n3 n4 (Some (keypair da sa)) = Ret (Some sA) ->
  exists cert s1 s2, ksExport sA = Some cert /\
    ks_add n5 n6 s0 l1 (pub_of da sa) None = Ret (true, s1) /\
    (forall o1 o2, an_order s1 o1 -> an_order s1 o2 -> import_verified_key o1 o2 n7 s1 l2 cert = Ret (true, s2)) /\
    (exists os, orders s2 os /\ forall f, verify_chain os f s2 l2 = Ret None) /\
    forall os f, orders (remove_key s2 l1) os -> verify_chain os f (remove_key s2 l1) l2 = Ret None.
Proof.
  intros Hd Hs Hda Hsa Hn2 I3 N1 E1 N2 N12 ND H0 HA.
  apply new_kstore_exact in H0 as (d' & sg' & e' & v' & [= <- <- <- <-] & Es0).
  apply new_kstore_exact in HA as (dA & sgA & eA & vA & [= <- <- <- <-] & EsA).
  fold (pub_of d seed) in Es0. fold (pub_of da sa) in EsA.
  set (certA := VKey (pub_of da sa) (pub_of da sa) n3 (ed_sign (sa ++ ed_pub sa) (pub_of da sa ++ pub_of da sa ++ be 8 (n3 mod 2 ^ 64)))) in *.
  assert (built s0) as B0.
  { apply (bt_new n1 n2 (keypair d seed)); [apply pair_wf; assumption|exact Hn2|]. apply new_kstore_exact. eexists _, _, _, _. split; [reflexivity|exact Es0]. }
  pose proof (built_inv s0 B0) as I0.
  assert (forall l r, ~ krecord s0 l r) as Emp.
  { intros l r (m & E & H). rewrite Es0 in E. injection E as <-. rewrite lookup_empty in H. discriminate H. }
  assert (~ kpresent s0 l1) as P1 by (rewrite (kwell_present s0 l1 (ki_well _ I0)); intros [r H]; eapply Emp; eauto).
  destruct (add_keypair n5 n6 s0 l1 (pub_of da sa) None d seed) as (s1 & A1 & D1); try assumption.
  { exact (ki_ready _ I0). } { rewrite Es0. reflexivity. } { rewrite Es0. reflexivity. } { apply length_pub_of. }
  assert (built s1) as B1 by (eapply bt_add; eauto).
  pose proof (built_inv s1 B1) as I1. set (r1 := KRec l1 _ _ _ _ _ _ _) in D1.
  assert (owner s1 = pub_of d seed) as O1 by (destruct D1 as (m & _ & ->); rewrite Es0; reflexivity).
  assert (krecord s1 l1 r1) as K1 by (apply (added_record _ _ _ _ _ _ D1); left; auto).
  assert (forall l r, krecord s1 l r -> l = l1 /\ r = r1) as Only.
  { intros l r H. apply (added_record _ _ _ _ _ _ D1) in H as [H|[_ H]]; [exact H|]. exfalso. eapply Emp; eauto. }
  assert (distinct_keys s1) as DK1.
  { split; [intros l l' r r' H H' _; apply Only in H as [-> _], H' as [-> _]; reflexivity|].
    intros l r H. apply Only in H as [_ ->]. rewrite O1. exact ND. }
  assert (small_vkey certA) as Sm.
  { split; [exact I3|]. unfold certA, zlen. cbn [vPublic vSigner vSig]. rewrite !length_pub_of, ed_sign_length. lia. }
  assert (importable s1 l2 certA) as Im.
  { split; [exact (ki_ready _ I1)|]. split; [exact N2|]. split.
    { rewrite (kwell_present s1 l2 (ki_well _ I1)). intros [r H]. apply Only in H as [H _]. congruence. }
    split; [apply keypair_certifies; exact Hsa|]. right. cbn [certA vSigner]. rewrite O1. split; [exact ND|].
    exists l1, r1. split; [exact K1|]. split; [reflexivity|]. split; [exact E1|]. exists r1. split; [exact K1|]. left.
    rewrite O1. split; [unfold signer, r1; cbn [krSigner]; rewrite Es0; reflexivity|].
    unfold good_under, subject, signature, r1. cbn [krKeys krSig krSigTime octets_of].
    replace (owner s0) with (pub_of d seed) by (rewrite Es0; reflexivity). apply keypair_certifies. exact Hs. }
  set (r2 := KRec l2 1 n7 (Some (vPublic certA)) (Some (vSig certA)) (Some (vSigner certA)) (vTime certA) None).
  destruct (ksKeys s1) as [m1|] eqn:Em; [|destruct (ki_ready _ I1) as (_ & _ & []); exact Em].
  set (s2 := KStore (ksVersion s1) (ksTime s1) (Some (<[l2 := Some r2]> m1)) (ksBlob s1) (ksPub s1) (ksExport s1) (ksPriv s1) (ksLocked s1)).
  assert (added s1 l2 r2 s2) as D2 by (exists m1; auto).
  exists (serialise certA), s1, s2. split; [rewrite EsA; reflexivity|]. split; [exact A1|].
  assert (forall o1 o2, an_order s1 o1 -> an_order s1 o2 -> import_verified_key o1 o2 n7 s1 l2 (serialise certA) = Ret (true, s2)) as IM.
  { intros o1 o2 Or1 Or2. rewrite <- (app_nil_r (serialise certA)), import_serialised.
    destruct (import_certain o1 o2 n7 s1 l2 (der_vkey certA) certA) as (s' & E); try assumption; [exact (ki_well _ I1)| |].
    { rewrite <- (app_nil_r (der_vkey certA)). apply parse_der_vkey. exact Sm. }
    rewrite E. apply import_sound in E as (v & Pv & _ & A); [|exact (ki_well _ I1)|assumption|assumption].
    rewrite <- (app_nil_r (der_vkey certA)), parse_der_vkey in Pv by exact Sm. injection Pv as <-.
    destruct A as (m & Em' & ->). rewrite Em in Em'. injection Em' as <-. reflexivity. }
  split; [exact IM|].
  assert (an_order s1 (map_to_list m1)) as Or by (exists m1; auto).
  assert (built s2) as B2 by (eapply bt_import_pem; [exact B1|exact Or|exact Or|apply IM; exact Or]).
  pose proof (built_inv s2 B2) as I2.
  assert (krecord s2 l2 r2) as K2 by (apply (added_record _ _ _ _ _ _ D2); left; auto).
  assert (forall l r, krecord (remove_key s2 l1) l r <-> l = l2 /\ r = r2) as Only2.
  { intros l r. rewrite removed_record, (added_record _ _ _ _ _ _ D2). split.
    - intros [N [H|[_ H]]]; [exact H|]. apply Only in H as [H _]. congruence.
    - intros [-> ->]. auto. }
  assert (good_under r2 (subject r2)) as G2 by (apply keypair_certifies; exact Hsa).
  split.
  { apply never_ends. split; [exact (ki_ready _ I2)|]. split; [exact N2|]. exists l2. split; [constructor|]. apply tc_once.
    split; [exact N2|]. split; [exact N2|]. exists r2, l2, r2, r2. split_and!; auto.
    change (owner s2) with (owner s1). rewrite O1. exact ND. }
  intros os f Os. apply (self_loop _ l2 r2).
  - destruct (ki_ready _ I2) as (A & B & _). split; [exact A|]. split; [exact B|]. discriminate.
  - intros m l v Em' H. cbn [ksKeys remove_key s2 option_map] in Em'. injection Em' as <-. apply lookup_delete_Some in H as [_ H].
    exact (ki_well _ I2 _ _ _ eq_refl H).
  - split.
    + intros l l' r r' H H' _. apply Only2 in H as [-> _], H' as [-> _]. reflexivity.
    + intros l r H. apply Only2 in H as [_ ->]. change (owner (remove_key s2 l1)) with (owner s1). rewrite O1. exact ND.
  - apply Only2. auto.
  - reflexivity.
  - apply keypair_certifies. exact Hsa.
  - exact Os.
Qed.
End WithCrypto.

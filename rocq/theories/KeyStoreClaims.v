(** The remaining claims about key stores, C44 and C47-C52. *)
From Verif Require Export KeyStoreCerts.
Local Open Scope Z_scope.

Section WithCrypto.
Context {C : Crypto} {L : CryptoLaws}.

(** *** A file with a record called "self" *)
Definition forged (d seed da sa X : bytes) (blob : option bytes) : kstore :=
  KStore 1 1 (Some (<[bs "self" := Some (KRec (bs "self") 1 1 (Some (pub_of da sa)) None None 0 None)]>
               {[bs "evil" := Some (KRec (bs "evil") 1 1 (Some X)
                  (Some (ed_sign (sa ++ ed_pub sa) (X ++ pub_of da sa ++ be 8 (1 mod 2 ^ 64)))) (Some (pub_of da sa)) 1 None)]}))
    blob (Some (pub_of d seed)) None None (match blob with None => false | Some _ => true end).
Lemma forged_records d seed da sa X blob l r : krecord (forged d seed da sa X blob) l r <->
  l = bs "self" /\ r = KRec (bs "self") 1 1 (Some (pub_of da sa)) None None 0 None \/
  l = bs "evil" /\ r = KRec (bs "evil") 1 1 (Some X)
                  (Some (ed_sign (sa ++ ed_pub sa) (X ++ pub_of da sa ++ be 8 (1 mod 2 ^ 64)))) (Some (pub_of da sa)) 1 None.
Proof.
  rewrite krecord_lookup. unfold kkeys. cbn [forged ksKeys from_option id]. destruct (decide (l = bs "self")) as [-> | N].
  - rewrite lookup_insert. split; [intros [= <-]; auto|]. intros [[_ ->]|[[=] _]]. reflexivity.
  - rewrite lookup_insert_ne by congruence. destruct (decide (l = bs "evil")) as [-> | N'].
    + rewrite lookup_singleton. split; [intros [= <-]; auto|]. intros [[[=] _]|[_ ->]]. reflexivity.
    + rewrite lookup_singleton_ne by congruence. split; [discriminate|]. intros [[? _]|[? _]]; congruence.
Qed.
Lemma ascii_text s : forallb (fun b => bz b <? 128) s = true -> utf8_text s.
Proof. intros H. apply utf8_is_text, utf8_ascii. apply Forall_forall. intros b Hb. rewrite forallb_forall in H. apply elem_of_list_In in Hb. specialize (H b Hb). lia. Qed.
Lemma forged_trust d seed da sa X blob : pub_of da sa <> pub_of d seed -> forall l, ~ trusted (forged d seed da sa X blob) l.
Proof.
  intros ND l T. assert (l = bs "evil") as E.
  { destruct T as [l r K Sg G|l r l' r' K K' G T]; apply forged_records in K as [[-> ->]|[-> _]]; try reflexivity.
    - unfold signer, owner in Sg. cbn [krSigner forged ksPub octets_of] in Sg. pose proof (length_pub_of d seed) as H. rewrite <- Sg in H. discriminate H.
    - destruct G as (_ & H & _). unfold signature in H. cbn [krSig octets_of] in H. discriminate H. }
  induction T as [l r K Sg G|l r l' r' K K' G T IH].
  - apply forged_records in K as [[-> _]|[_ ->]]; [discriminate E|]. unfold signer, owner in Sg. cbn [krSigner forged ksPub octets_of] in Sg. congruence.
  - apply forged_records in K' as [[-> Er']|[-> _]]; [|auto].
    destruct T as [l2 r2 K2 Sg2 G2|l2 r2 l3 r3 K2 K3 G2 T2]; apply forged_records in K2 as [[-> ->]|[-> _]]; try (apply IH; reflexivity).
    + unfold signer, owner in Sg2. cbn [krSigner forged ksPub octets_of] in Sg2. pose proof (length_pub_of d seed) as H. rewrite <- Sg2 in H. discriminate H.
    + destruct G2 as (_ & H & _). unfold signature in H. cbn [krSig octets_of] in H. discriminate H.
Qed.
Lemma forged_find d seed da sa X blob o : X <> pub_of da sa -> an_order (forged d seed da sa X blob) o ->
  find_loop o (pub_of da sa) = Ret (Some (bs "self")).
Proof.
  intros NX O. destruct (find_loop_total o (pub_of da sa)) as [[l|] F].
  { destruct O as (m & E & P). intros k v I. rewrite P, elem_of_map_to_list in I. cbn [forged ksKeys] in E. injection E as <-.
    apply lookup_insert_Some in I as [[_ <-]|[_ I]]; [discriminate|]. apply lookup_singleton_Some in I as [_ <-]. discriminate. }
  - destruct (find_loop_record _ _ _ _ O F) as (k & v & K & Sv & Lv). apply forged_records in K as [[_ ->]|[_ ->]].
    + rewrite F. do 2 f_equal. symmetry. exact Lv.
    + unfold subject in Sv. cbn [krKeys octets_of] in Sv. congruence.
  - exfalso. destruct (find_loop_none o _ F (bs "self") (Some (KRec (bs "self") 1 1 (Some (pub_of da sa)) None None 0 None))) as (r' & [= <-] & N).
    { apply (an_order_in _ o _ _ O). apply forged_records. left. auto. }
    apply N. reflexivity.
Qed.
Lemma forged_ready d seed da sa X blob : ready (forged d seed da sa X blob).
Proof. split; [reflexivity|]. split; [discriminate|]. discriminate. Qed.
Lemma forged_accepts d seed da sa X blob f path orNew now now2 g : length sa = 32%nat -> pub_of da sa <> pub_of d seed -> X <> pub_of da sa ->
  f !! path = Some (ks_dump (forged d seed da sa X blob)) ->
  exists s, load_kstore f path orNew now now2 g = Ret (Some s, g) /\ owner s = pub_of d seed /\ ~ trusted s (bs "evil") /\
    (exists r, krecord s (bs "evil") r /\ subject r = X) /\
    (forall os n, orders s os -> verify_chain os (S n) s (bs "evil") = Ret (Some true)) /\
    (forall o1 o2 n l Y t, an_order s o1 -> an_order s o2 -> l <> bs "self" -> l <> bs "evil" -> zlen Y < 2 ^ 29 -> int64 t ->
       exists cert s', import_verified o1 o2 n s l cert = Ret (true, s') /\ parse_vkey cert =
         Some (VKey Y (pub_of da sa) t (ed_sign (sa ++ ed_pub sa) (Y ++ pub_of da sa ++ be 8 (t mod 2 ^ 64))))).
Proof.
  intros Hsa ND NX F. pose proof (forged_ready d seed da sa X blob) as R.
  exists (closed_copy (forged d seed da sa X blob)). split.
  { apply load_dump; [exact R| | |exact F].
    - unfold go_kstore, int64. cbn [forged ksVersion ksTime]. split; [lia|]. split; [lia|].
      intros l r K. apply forged_records in K as [[_ ->]|[_ ->]]; kproj; unfold int64; lia.
    - intros m l v E I. cbn [forged ksKeys] in E. injection E as <-.
      apply lookup_insert_Some in I as [[<- <-]|[_ I]]; [|apply lookup_singleton_Some in I as [<- <-]];
        (split; [apply ascii_text; reflexivity|]); intros r [= <-]; (split; [apply ascii_text; reflexivity|]); discriminate. }
  change (closed_copy (forged d seed da sa X blob)) with (forged d seed da sa X blob).
  set (s := forged d seed da sa X blob) in *.
  set (re := KRec (bs "evil") 1 1 (Some X) (Some (ed_sign (sa ++ ed_pub sa) (X ++ pub_of da sa ++ be 8 (1 mod 2 ^ 64)))) (Some (pub_of da sa)) 1 None).
  set (rs := KRec (bs "self") 1 1 (Some (pub_of da sa)) None None 0 None).
  assert (krecord s (bs "evil") re) as Ke by (apply forged_records; right; auto).
  assert (krecord s (bs "self") rs) as Ks by (apply forged_records; left; auto).
  split; [reflexivity|]. split; [apply forged_trust; exact ND|]. split; [exists re; auto|]. split.
  - intros os n O. unfold verify_chain. rewrite (proj2 (ks_quick_iff s) R).
    rewrite (proj2 (ks_has_iff s (bs "evil"))); [|split; [exact R|right; apply kpresent_lookup; apply krecord_lookup in Ke; eauto]].
    cbn [negb orb]. rewrite decide_False by discriminate. cbn [chain_loop].
    rewrite (vks_signed _ s (bs "evil") re); [|exact R|discriminate|exact Ke|exact ND].
    change (signer re) with (pub_of da sa). rewrite (forged_find d seed da sa X blob (os 0%nat) NX (O 0%nat)). cbn [obind].
    rewrite (keys_of_record s (bs "self") rs Ks). cbn [obind]. rewrite bool_decide_eq_true_2 by (apply keypair_certifies; exact Hsa).
    cbn [obind]. rewrite decide_True by reflexivity. reflexivity.
  - intros o1 o2 n l Y t O1 O2 Nl Nl' HY It.
    set (v := VKey Y (pub_of da sa) t (ed_sign (sa ++ ed_pub sa) (Y ++ pub_of da sa ++ be 8 (t mod 2 ^ 64)))).
    assert (parse_vkey (der_vkey v) = Some v) as Pv.
    { rewrite <- (app_nil_r (der_vkey v)). apply parse_der_vkey. split; [exact It|]. unfold v. cbn [vPublic vSigner vSig].
      unfold zlen at 2 3. rewrite length_pub_of, ed_sign_length. lia. }
    exists (der_vkey v).
    destruct (import_stored o1 o2 n s l (der_vkey v) v (bs "self") rs self) as (s' & E & _).
    + exact R. + exact Nl.
    + intros (m & x & E & I). cbn [s forged ksKeys] in E. injection E as <-. apply lookup_insert_Some in I as [[E _]|[_ I]]; [congruence|].
      apply lookup_singleton_Some in I as [E _]. congruence.
    + exact Pv. + exact ND. + apply (forged_find d seed da sa X blob o1 NX O1). + exact Ks. + reflexivity. + discriminate.
    + apply vks_self. exact R.
    + apply keypair_certifies. exact Hsa.
    + exists s'. auto.
Qed.

(** *** Certificates *)
Lemma signature_data_inj v v' : length (vSigner v) = 64%nat -> length (vSigner v') = 64%nat -> int64 (vTime v) -> int64 (vTime v') ->
  signature_data v = signature_data v' -> vPublic v = vPublic v' /\ vSigner v = vSigner v' /\ vTime v = vTime v'.
Proof.
  intros H H' I I' E. unfold signature_data in E. rewrite !app_assoc in E.
  apply app_inj_2 in E as [E1 E2]; [|rewrite !length_be; reflexivity]. apply app_inj_2 in E1 as [E1 E3]; [|congruence].
  split; [exact E1|]. split; [exact E3|]. apply (f_equal unbe) in E2. rewrite !unbe_be in E2.
  unfold to_u in E2. change (256 ^ Z.of_nat 8) with (2 ^ 64) in E2. rewrite !Z.mod_mod in E2 by lia. unfold int64 in *. lia.
Qed.
Lemma signature_data_ambiguous : exists v v', signature_data v = signature_data v' /\ vPublic v <> vPublic v' /\ length (vPublic v) = 64%nat /\ length (vSigner v) = 64%nat.
Proof.
  exists (VKey (replicate 64 x41) (replicate 64 x41) 0 []), (VKey (replicate 63 x41) (replicate 65 x41) 0 []).
  split; [vm_compute; reflexivity|]. split; [discriminate|]. auto.
Qed.
Lemma sign_is_certificate s d seed X t o1 o2 now l : length d = 32%nat -> length seed = 32%nat -> holds_pair s d seed -> int64 t -> zlen X < 2 ^ 29 ->
  l <> bs "self" -> ~ kpresent s l ->
  exists sig s', ks_sign s (X ++ owner s ++ be 8 (t mod 2 ^ 64)) = Ret (Some sig) /\
    import_verified o1 o2 now s l (der_vkey (VKey X (owner s) t sig)) = Ret (true, s') /\
    exists r, krecord s' l r /\ subject r = X.
Proof.
  intros Hd Hs HP It HX Nl Pl. pose proof HP as (R & Lk & Pk & O). unfold ks_sign. rewrite (holds_pair_valid s d seed) by assumption. rewrite Lk. cbn [obind negb orb].
  rewrite Pk. rewrite O. set (data := X ++ pub_of d seed ++ be 8 (t mod 2 ^ 64)).
  set (v := VKey X (pub_of d seed) t (ed_sign (seed ++ ed_pub seed) data)).
  destruct (import_owner o1 o2 now s l (der_vkey v) v) as (s' & E & A); try assumption.
  { rewrite <- (app_nil_r (der_vkey v)). apply parse_der_vkey. split; [exact It|]. unfold v. cbn [vPublic vSigner vSig].
    unfold zlen at 2 3. rewrite length_pub_of, ed_sign_length. lia. }
  { symmetry. exact O. } { apply keypair_certifies. exact Hs. }
  exists (ed_sign (seed ++ ed_pub seed) data), s'. split; [reflexivity|]. split; [exact E|].
  eexists. split; [apply (added_record _ _ _ _ _ _ A); left; split; reflexivity|]. reflexivity.
Qed.

(** *** Locked stores *)
Lemma valid_cases s : go_priv s -> exists b, ks_valid s = Ret b.
Proof. intros G. destruct (ks_valid_dec s G) as [[-> _]|[-> _]]; eauto. Qed.
Lemma locked_refuses s : go_priv s -> ksLocked s = true ->
  (forall m, ks_sign s m = Ret None) /\ (forall m, ks_decrypt s m = Ret None) /\
  (forall l m g, ks_encrypt_sign_to s l m g = Ret (None, g)) /\ (forall l m, ks_decrypt_verify s l m = Ret None) /\
  (forall now now2 l peer md, ks_add now now2 s l peer md = Ret (false, s)) /\
  (forall os f now l, export_verified os f now s l = Ret (Some None)).
Proof.
  intros G Lk. destruct (valid_cases s G) as [b E].
  unfold ks_sign, ks_decrypt, ks_encrypt_sign_to, ks_decrypt_verify, ks_add, export_verified. rewrite E, Lk. cbn [obind].
  split_and!; intros; rewrite ?orb_true_r; try reflexivity.
  destruct (negb (ks_quick s)); [reflexivity|]. destruct (ks_has s l); reflexivity.
Qed.
Lemma built_locked s : built s -> ksLocked s = true -> ksPriv s = None.
Proof.
  induction 1 as [now now2 k s Wk Nt H|now now2 s l peer md b s' B I H|o1 o2 now s l data b s' B I O1 O2 H
    |o1 o2 now s l data b s' B I O1 O2 H|s b s' z B I H|s pass g b s' z g' B I H|now s pass b s' B I H EO
    |f path orNew now now2 g s s' g' B I G T F H]; intros Lk.
  - apply new_kstore_exact in H as (d & sg & e & v & -> & ->). discriminate Lk.
  - apply add_inv in H as [[_ ->]|(_ & _ & _ & _ & _ & _ & k & p & sig & _ & _ & _ & _ & _ & (m & _ & ->))]; [auto|]. cbn [ksLocked ksPriv] in *. auto.
  - apply import_inv in H as [[_ ->]|(_ & _ & _ & _ & v & who & pub & _ & _ & _ & _ & _ & (m & _ & ->))]; [auto|]. cbn [ksLocked ksPriv] in *. auto.
  - unfold import_verified_key in H. destruct (pem_decode data) as [[ty body]|]; [|injection H as _ <-; auto].
    case_decide; [injection H as _ <-; auto|].
    apply import_inv in H as [[_ ->]|(_ & _ & _ & _ & v & who & pub & _ & _ & _ & _ & _ & (m & _ & ->))]; [auto|]. cbn [ksLocked ksPriv] in *. auto.
  - unfold ks_lock in H. destruct (ks_valid s) as [[|]|]; cbn [obind negb] in H; try discriminate H; [|injection H as _ <- _; auto].
    destruct (ksLocked s) eqn:L0; [injection H as _ <- _; auto|].
    destruct (priv_zero (ksPriv s)); cbn [obind] in H; [|discriminate H]. injection H as _ <- _. reflexivity.
  - unfold ks_lock_with in H. destruct (ks_valid s) as [[|]|]; cbn [obind negb] in H; try discriminate H; [|injection H as _ <- _ _; auto].
    destruct (ksLocked s) eqn:L0; [injection H as _ <- _ _; auto|].
    destruct (lock_key (ksPriv s) pass g) as [[[blob|] g1]|]; cbn [obind] in H; try discriminate H.
    + destruct (priv_zero _); cbn [obind] in H; [|discriminate H]. injection H as _ <- _ _. reflexivity.
    + injection H as _ <- _ _. cbn [with_blob ksLocked] in Lk. congruence.
  - apply unlock_inv in H as [[-> _]|(_ & _ & _ & d & sg & e & v & _ & _ & ->)]; [auto|]. discriminate Lk.
  - rewrite (load_dump s) in H; try assumption; [|exact (ki_ready s (built_inv s B))]. injection H as <- <-. reflexivity.
Qed.
Lemma public_ops_same s : go_priv s -> healthy s ->
  (forall l m g, ks_encrypt_to (with_priv s None true) l m g = ks_encrypt_to s l m g) /\
  (forall l m sig, ks_verify (with_priv s None true) l m sig = ks_verify s l m sig) /\
  (forall os f l, verify_chain os f (with_priv s None true) l = verify_chain os f s l) /\
  (forall o1 o2 now l data b s', import_verified o1 o2 now s l data = Ret (b, s') ->
     import_verified o1 o2 now (with_priv s None true) l data = Ret (b, with_priv s' None true)).
Proof.
  intros G (R & HO & O). split; [reflexivity|]. split.
  - intros l m sig. unfold ks_verify. change (ks_quick (with_priv s None true)) with (ks_quick s).
    change (ks_has (with_priv s None true) l) with (ks_has s l). destruct (negb (ks_quick s)); [reflexivity|].
    destruct (ks_has s l) eqn:Hh; cbn [negb]; [|reflexivity]. unfold get_public.
    change (ks_has (with_priv s None true) l) with (ks_has s l). rewrite Hh. cbn [negb].
    change (keys_of (with_priv s None true) l) with (keys_of s l). case_decide as D; [|reflexivity].
    change (ksLocked (with_priv s None true)) with true. cbn [ksPub with_priv].
    destruct (ksLocked s) eqn:Lk; [reflexivity|]. destruct (O eq_refl) as (k & -> & Ok). cbn [deref obind].
    destruct (owns_pub s k Ok) as (e & v & Ep & He & Hv & EO). rewrite Ep, obytes_octets. fold (owner s). rewrite EO.
    rewrite (proj2 (unmarshal_public_exact (e ++ v) (PubKey (Some e) (Some v)))) by eauto 8. reflexivity.
  - split.
    + intros os f l. unfold verify_chain. change (ks_quick (with_priv s None true)) with (ks_quick s).
      change (ks_has (with_priv s None true) l) with (ks_has s l).
      destruct (negb (ks_quick s) || negb (ks_has s l)); [reflexivity|]. case_decide; [reflexivity|].
      generalize 0%nat. revert l H. induction f as [|f IH]; intros l D i; [reflexivity|]. cbn [chain_loop].
      change (verify_key_signature (os i) (with_priv s None true) l) with (verify_key_signature (os i) s l).
      destruct (verify_key_signature (os i) s l) as [[w|]|]; cbn [obind]; try reflexivity. case_decide; [reflexivity|]. apply IH. assumption.
    + intros o1 o2 now l data b s' E. destruct b.
      * unfold import_verified in *. change (ks_quick (with_priv s None true)) with (ks_quick s).
        change (ks_has (with_priv s None true) l) with (ks_has s l).
        destruct (negb (ks_quick s) || ks_has s l); [discriminate E|]. destruct (parse_vkey data) as [v|]; [|discriminate E].
        change (ksPub (with_priv s None true)) with (ksPub s).
        change (find_public o1 (with_priv s None true) (vSigner v)) with (find_public o1 s (vSigner v)).
        change (keys_of (with_priv s None true)) with (keys_of s).
        match type of E with obind ?e0 _ = _ => destruct e0 as [[[who [pub|]]|]|]; cbn [obind] in E |- *; try discriminate E end.
        case_decide; [discriminate E|]. change (verify_key_signature o2 (with_priv s None true) who) with (verify_key_signature o2 s who).
        destruct (verify_key_signature o2 s who) as [[w|]|]; cbn [obind] in E |- *; try discriminate E.
        destruct (unmarshal_public pub); [|discriminate E]. destruct (verify _ _ _) as [[|]|]; cbn [obind negb] in E |- *; try discriminate E.
        unfold put_key in *. cbn [with_priv ksKeys]. destruct (ksKeys s) as [m|]; cbn [obind] in E |- *; [|discriminate E]. injection E as <-. reflexivity.
      * apply import_false_unchanged in E as E'. subst s'.
        unfold import_verified in *. change (ks_quick (with_priv s None true)) with (ks_quick s).
        change (ks_has (with_priv s None true) l) with (ks_has s l).
        destruct (negb (ks_quick s) || ks_has s l); [reflexivity|]. destruct (parse_vkey data) as [v|]; [|reflexivity].
        change (ksPub (with_priv s None true)) with (ksPub s).
        change (find_public o1 (with_priv s None true) (vSigner v)) with (find_public o1 s (vSigner v)).
        change (keys_of (with_priv s None true)) with (keys_of s).
        match type of E with obind ?e0 _ = _ => destruct e0 as [[[who [pub|]]|]|]; cbn [obind] in E |- *; try discriminate E; try reflexivity end.
        case_decide; [reflexivity|]. change (verify_key_signature o2 (with_priv s None true) who) with (verify_key_signature o2 s who).
        destruct (verify_key_signature o2 s who) as [[w|]|]; cbn [obind] in E |- *; try discriminate E; try reflexivity.
        destruct (unmarshal_public pub); [|reflexivity]. destruct (verify _ _ _) as [[|]|]; cbn [obind negb] in E |- *; try discriminate E; try reflexivity.
        unfold put_key in *. destruct (ksKeys s) as [m|]; cbn [obind] in E |- *; discriminate E.
Qed.

(** *** Locking and unlocking *)
Lemma healthy_pub s : healthy s -> ksPub s = Some (owner s).
Proof. intros (_ & H & _). unfold owner in *. destruct (ksPub s); [reflexivity|discriminate H]. Qed.
Lemma lock_roundtrip s pass g salt nonce g' now : go_priv s -> healthy s -> ksLocked s = false ->
  length salt = 32%nat -> length nonce = 24%nat -> delivers g (salt ++ nonce) g' ->
  exists blob z s' s2, ks_lock_with s pass g = Ret (true, s', Some z, g') /\
    ksLocked s' = true /\ ksPriv s' = None /\ ksBlob s' = Some blob /\ (exists k, ksPriv s = Some k /\ wiped_key k z) /\
    ks_unlock now s' pass = Ret (true, s2) /\ ksLocked s2 = false /\ ksPriv s2 = ksPriv s /\ ksKeys s2 = ksKeys s /\ owner s2 = owner s /\
    (ksExport s <> None -> s2 = with_blob s (Some blob)) /\ (forall m, ks_sign s2 m = ks_sign s m).
Proof.
  intros G H Lk Hs Hn D. destruct (lock_with_exact s pass g G) as (_ & _ & _ & X).
  destruct (X H Lk salt nonce g' Hs Hn D) as (k & z & blob & Ek & Wz & _ & U & E). clear X.
  pose proof H as (R & HO & O). destruct (O Lk) as (k' & Ek' & Ok). rewrite Ek in Ek'. injection Ek' as <-.
  pose proof Ok as (d & sg & e & v & -> & W & EO).
  set (s' := with_priv (with_blob s (Some blob)) None true) in *.
  assert (ready s') as R' by exact R.
  pose proof (unlock_finds now s' pass d sg e v R' eq_refl U) as Un.
  exists blob, z, s', (unlocked now s' d sg e v). split; [exact E|]. split; [reflexivity|]. split; [reflexivity|]. split; [reflexivity|].
  split; [eauto|]. split; [exact Un|]. split; [reflexivity|]. split; [rewrite Ek; reflexivity|]. split; [reflexivity|].
  split; [rewrite EO; reflexivity|]. split.
  - intros Ex. unfold unlocked, s', with_blob, with_priv. kproj. rewrite <- EO, <- (healthy_pub s H), Lk.
    destruct (ksExport s); [|congruence]. unfold full_priv. rewrite <- Ek. reflexivity.
  - intros m. unfold ks_sign. rewrite (proj2 (ks_valid_true s G) H), Lk, Ek. cbn [obind negb orb].
    assert (ks_valid (unlocked now s' d sg e v) = Ret true) as ->.
    { apply ks_valid_true; [intros k [= <-]; exact W|]. split; [exact R|].
      split; [unfold owner, unlocked; kproj; cbn [octets_of]; rewrite <- EO; exact HO|].
      intros _. eexists. split; [reflexivity|]. exists d, sg, e, v. auto. }
    reflexivity.
Qed.
Lemma unlock_exact now s pass : ready s -> ksLocked s = true ->
  (forall s', ks_unlock now s pass = Ret (true, s') <->
     exists out d sg e v, genuine_file pass out (octets_of (ksBlob s)) /\ unmarshal_private out = Ret (Some (full_priv d sg e v)) /\
       s' = unlocked now s d sg e v) /\
  ((forall out, ~ genuine_file pass out (octets_of (ksBlob s))) -> ks_unlock now s pass = Ret (false, s)).
Proof.
  intros R Lk. split.
  - intros s'. split.
    + intros H. apply unlock_inv in H as [[_ [[=]|[_ F]]]|(_ & _ & _ & d & sg & e & v & U & _ & ->)]; [congruence|].
      apply unlock_key_exact in U as (out & Gf & U). exists out, d, sg, e, v. auto.
    + intros (out & d & sg & e & v & Gf & U & ->). apply unlock_finds; try assumption. apply unlock_key_exact. eauto.
  - intros N. rewrite unlock_quick, Lk by assumption. cbn [negb]. rewrite obytes_octets, unlock_key_rejects by exact N. reflexivity.
Qed.
Lemma unlock_unlocked now s pass : ready s -> ksLocked s = false -> ks_unlock now s pass = Ret (true, s).
Proof. intros R Lk. rewrite unlock_quick, Lk by assumption. reflexivity. Qed.
(** Lock on a store that never was locked with a passphrase. *)
Lemma lock_loses s : go_priv s -> healthy s -> ksLocked s = false -> ksBlob s = None ->
  exists s' z, ks_lock s = Ret (true, s', z) /\ ksPriv s' = None /\
    forall now pass, ks_unlock now s' pass = Ret (false, s').
Proof.
  intros G H Lk B. destruct (lock_exact s G) as (_ & _ & X). destruct (X H Lk) as (k & z & _ & _ & E).
  exists (with_priv s None true), (Some z). split; [exact E|]. split; [reflexivity|]. intros now pass.
  rewrite unlock_quick by exact (proj1 H). cbn [with_priv ksLocked ksBlob negb]. rewrite B. reflexivity.
Qed.
Lemma new_no_blob now now2 k s : wf_priv k -> now2 <> 0 -> new_kstore now now2 (Some k) = Ret (Some s) ->
  go_priv s /\ healthy s /\ ksLocked s = false /\ ksBlob s = None /\ ksPriv s = Some k /\ ksKeys s = Some ∅.
Proof.
  intros W N H. assert (built s) as B by (eapply bt_new; eauto). pose proof (built_inv s B) as [R Wl O P T].
  split; [apply owns_go_priv; exact P|]. apply new_kstore_exact in H as (d & sg & e & v & -> & ->).
  split; [|auto]. split; [exact R|]. split; [exact O|]. intros _. eexists. split; [reflexivity|]. apply P. reflexivity.
Qed.
(** The private key returns on Lock and Unlock once it was locked with a
    passphrase, and a failing LockWith forgets it. *)
Lemma lock_with_forgets s pass g : go_priv s -> healthy s -> ksLocked s = false -> starved g 56 ->
  exists s' g', ks_lock_with s pass g = Ret (false, s', None, g') /\ ksBlob s' = None /\
    exists s2 z, ks_lock s' = Ret (true, s2, z) /\ ksPriv s2 = None /\ forall now p, ks_unlock now s2 p = Ret (false, s2).
Proof.
  intros G H Lk S. destruct (lock_with_exact s pass g G) as (_ & _ & X & _). destruct (X H Lk S) as (g' & E).
  exists (with_blob s None), g'. split; [exact E|]. split; [reflexivity|]. apply lock_loses; auto.
Qed.

(** *** Serialising *)
Lemma dump_public s s' : same_public s s' -> ks_dump s = ks_dump s'.
Proof. intros (A & B & D & E & F & G). unfold ks_dump. rewrite A, B, D, E, F, G. reflexivity. Qed.
Lemma dump_inj s s' : ready s -> ready s' -> go_kstore s -> go_kstore s' -> text_kstore s -> text_kstore s' ->
  ks_dump s = ks_dump s' -> same_public s s'.
Proof.
  intros R R' G G' T T' E.
  pose proof (load_dump s {[bs "f" := ks_dump s]} (bs "f") false 0 0 [] R G T (lookup_singleton _ _)) as H.
  rewrite (load_dump s' {[bs "f" := ks_dump s]} (bs "f") false 0 0 [] R' G' T') in H by (rewrite E; apply lookup_singleton).
  injection H as H1 H2 H3 H4 H5 H6 H7. unfold same_public. auto 10.
Qed.
Lemma dump_keystore_exact s : go_priv s -> exists s', dump_keystore s = Ret (ks_dump s, s') /\
  (healthy s -> ksPriv s' = None \/ ksLocked s = true) /\ same_public s s' /\ (~ healthy s -> s' = s).
Proof.
  intros G. unfold dump_keystore. destruct (lock_exact s G) as (X1 & X2 & X3).
  destruct (ks_valid_dec s G) as [[_ H]|[_ H]].
  - destruct (ksLocked s) eqn:Lk.
    + rewrite X2 by auto. exists s. split; [reflexivity|]. split; [auto|]. split; [unfold same_public; auto 10|contradiction].
    + destruct (X3 H eq_refl) as (k & z & _ & _ & ->). exists (with_priv s None true). split; [reflexivity|].
      split; [left; reflexivity|]. split; [unfold same_public, with_priv; kproj; auto 10|contradiction].
  - rewrite X1 by assumption. exists s. split; [reflexivity|]. split; [contradiction|]. split; [unfold same_public; auto 10|auto].
Qed.
(** A store dumped without ever being locked comes back without its key and
    not locked; asking for "self" then panics. *)
Lemma keyless_load s f path orNew now now2 g : ready s -> go_kstore s -> text_kstore s -> ksBlob s = None -> f !! path = Some (ks_dump s) ->
  exists s', load_kstore f path orNew now now2 g = Ret (Some s', g) /\ ksLocked s' = false /\ ksPriv s' = None /\
    (forall now pass, ks_unlock now s' pass = Ret (true, s')) /\ (forall m, ks_sign s' m = Ret None) /\
    (forall m sig, ks_verify s' (bs "self") m sig = Panic).
Proof.
  intros R G T B F. exists (closed_copy s). split; [apply load_dump; assumption|]. unfold closed_copy. rewrite B.
  set (s' := KStore _ _ _ _ _ _ _ _). assert (ready s') as R' by exact R. split; [reflexivity|]. split; [reflexivity|].
  split; [intros n p; apply unlock_unlocked; [exact R'|reflexivity]|]. split.
  - intros m. unfold ks_sign. destruct (ks_valid s') as [b|] eqn:V.
    + destruct b; [|reflexivity]. apply ks_valid_true in V as (_ & _ & O); [|intros k [=]]. destruct (O eq_refl) as (k & [=] & _).
    + destruct (valid_cases s') as [b E]; [intros k [=]|congruence].
  - intros m sig. unfold ks_verify, get_public. rewrite (proj2 (ks_quick_iff s') R').
    rewrite (proj2 (ks_has_iff s' (bs "self"))) by auto. cbn [negb]. rewrite decide_True by reflexivity. reflexivity.
Qed.
(** A missing file with orNew: GenerateKey panics as soon as it has its bytes. *)
Lemma load_new f path now now2 g : f !! path = None ->
  (starved g 64 -> exists g', load_kstore f path true now now2 g = Ret (None, g')) /\
  (~ starved g 64 -> load_kstore f path true now now2 g = Panic) /\
  load_kstore f path false now now2 g = Ret (None, g).
Proof.
  intros F. unfold load_kstore, read_file. rewrite F. destruct (gen_key_exact g) as [A B]. split; [|split; [|reflexivity]].
  - intros S. destruct (A S) as [g' ->]. cbn [obind]. eauto.
  - intros S. rewrite B by exact S. reflexivity.
Qed.

(** *** Messages *)
Lemma ks_encrypt_roundtrip sa l sb d seed m g ep nonce g' : length d = 32%nat -> length seed = 32%nat -> ready sa ->
  (l = bs "self" /\ owner sa = pub_of d seed \/ l <> bs "self" /\ exists r, krecord sa l r /\ subject r = pub_of d seed) ->
  holds_pair sb d seed -> 1 <= zlen m < 2 ^ 31 ->
  length ep = 32%nat -> length nonce = 24%nat -> delivers g (ep ++ nonce) g' ->
  exists c, ks_encrypt_to sa l m g = Ret (Some c, g') /\ ks_decrypt sb c = Ret (Some m).
Proof.
  intros Hd Hs R K HP Hm He Hn D. rewrite (ks_encrypt_to_eq sa l d seed) by assumption.
  destruct (encrypt_decrypt d seed m g ep nonce g' Hd He Hn D) as (c & E & _ & Dc). exists c. split; [exact E|].
  unfold ks_decrypt. rewrite (holds_pair_valid sb d seed) by assumption. destruct HP as (_ & -> & -> & _). cbn [obind negb orb].
  rewrite Dc, decide_True by exact Hm. reflexivity.
Qed.
Lemma ks_sign_roundtrip sa sb l d seed m : length d = 32%nat -> length seed = 32%nat -> holds_pair sa d seed -> ready sb -> knows sb l d seed ->
  exists sig, ks_sign sa m = Ret (Some sig) /\ ks_verify sb l m sig = Ret true.
Proof.
  intros Hd Hs HP R K. unfold ks_sign. rewrite (holds_pair_valid sa d seed) by assumption. destruct HP as (_ & -> & -> & _). cbn [obind negb orb].
  destruct (sign_verify d seed m Hs) as (sig & E & _ & V). exists sig. split; [exact E|].
  unfold ks_verify. rewrite (proj2 (ks_quick_iff sb) R), (knows_has sb l d seed R K), (knows_public sb l d seed R K). cbn [negb obind].
  change (kPub (keypair d seed)) with (Some (PubKey (Some (box_pub d)) (Some (ed_pub seed)))) in *. exact V.
Qed.
Lemma ks_signcrypt_roundtrip sa sb la lb da seedA db seedB m g ep nonce g' :
  length da = 32%nat -> length seedA = 32%nat -> length db = 32%nat -> length seedB = 32%nat ->
  holds_pair sa da seedA -> holds_pair sb db seedB -> knows sa lb db seedB -> knows sb la da seedA ->
  1 <= zlen m < 2 ^ 31 - 69 -> length ep = 32%nat -> length nonce = 24%nat -> delivers g (ep ++ nonce) g' ->
  exists c, ks_encrypt_sign_to sa lb m g = Ret (Some c, g') /\ ks_decrypt_verify sb la c = Ret (Some m).
Proof.
  intros Hda Hsa Hdb Hsb HA HB KA KB Hm He Hn D.
  destruct (signcrypt_roundtrip da seedA db seedB m g ep nonce g' Hsa Hdb He Hn D) as (c & E & _ & Dc & _). exists c. split.
  - unfold ks_encrypt_sign_to. rewrite (holds_pair_valid sa da seedA) by assumption. destruct HA as (R & -> & -> & _). cbn [obind negb orb].
    rewrite (knows_has sa lb db seedB R KA), (knows_public sa lb db seedB R KA). cbn [negb obind]. exact E.
  - unfold ks_decrypt_verify. rewrite (holds_pair_valid sb db seedB) by assumption. destruct HB as (R & -> & -> & _). cbn [obind negb orb].
    rewrite (knows_has sb la da seedA R KB), (knows_public sb la da seedA R KB). cbn [negb obind]. apply Dc. exact Hm.
Qed.
Lemma type_mismatch o1 o2 now s l data ty b : pem_decode data = Some (ty, b) -> ty <> bs "CRYPTUTIL VERIFIED KEY" ->
  parse_verified_key data = None /\ import_verified_key o1 o2 now s l data = Ret (false, s).
Proof. intros E N. unfold parse_verified_key, import_verified_key. rewrite E, !decide_True by exact N. auto. Qed.
Lemma not_pem o1 o2 now s l data : (forall u v, data <> u ++ bs "-----BEGIN " ++ v) ->
  parse_verified_key data = None /\ import_verified_key o1 o2 now s l data = Ret (false, s).
Proof. intros N. unfold parse_verified_key, import_verified_key. rewrite pem_no_marker by exact N. auto. Qed.
(** Export: what it gives is a certificate by the owner. *)
Lemma export_exact os f now s l out : export_verified os f now s l = Ret (Some (Some out)) ->
  ready s /\ ksLocked s = false /\ verify_chain os f s l = Ret (Some true) /\
  (l = bs "self" /\ ksExport s = Some out \/
   exists subj sig, (l = bs "self" /\ subj = owner s \/ l <> bs "self" /\ exists r, krecord s l r /\ subject r = subj) /\
     sign (ksPriv s) (subj ++ owner s ++ be 8 (now mod 2 ^ 64)) = Ret (Some sig) /\
     out = serialise (VKey subj (owner s) now sig)).
Proof.
  unfold export_verified. destruct (ks_quick s) eqn:Q; cbn [negb orb]; [|discriminate].
  destruct (ks_has s l); cbn [negb orb]; [|discriminate]. destruct (ksLocked s) eqn:Lk; [discriminate|].
  destruct (verify_chain os f s l) as [[[|]|]|]; cbn [obind]; try discriminate. intros H.
  split; [apply ks_quick_iff; exact Q|]. split; [reflexivity|]. split; [reflexivity|].
  assert (forall subj, (let! v := certify (ksPriv s) subj (obytes (ksPub s)) now in
       match v with None => Ret (Some None) | Some v => Ret (Some (Some (serialise v))) end) = Ret (Some (Some out)) ->
     exists sig, sign (ksPriv s) (subj ++ owner s ++ be 8 (now mod 2 ^ 64)) = Ret (Some sig) /\ out = serialise (VKey subj (owner s) now sig)) as X.
  { intros subj. unfold certify. change (signature_data (VKey subj (obytes (ksPub s)) now [])) with (subj ++ owner s ++ be 8 (now mod 2 ^ 64)).
    destruct (sign (ksPriv s) (subj ++ owner s ++ be 8 (now mod 2 ^ 64))) as [[sig|]|]; cbn [obind]; try discriminate.
    intros E. exists sig. split; [reflexivity|]. rewrite obytes_octets in E. fold (owner s) in E. congruence. }
  case_decide as D.
  - destruct (ksExport s) as [x|]; [left; split; [exact D|congruence]|]. right.
    destruct (X _ H) as (sig & Sg & E). exists (owner s), sig. rewrite obytes_octets in Sg, E. auto.
  - right. destruct (keys_of s l) as [k|] eqn:K; cbn [obind] in H; [|discriminate H]. destruct (X _ H) as (sig & Sg & E).
    apply keys_of_inv in K as (r & K & ->). exists (subject r), sig. rewrite obytes_octets in Sg, E. split; [right; split; [exact D|]; eauto|]. auto.
Qed.
(** *** Stores built through the API *)
Lemma built_summary s : built s -> ready s /\ kwell s /\ length (owner s) = 64%nat /\ (forall k, ksPriv s = Some k -> owns s k) /\
  (forall l r, krecord s l r -> l <> bs "self" /\ krLabel r = l /\ trusted s l).
Proof.
  intros B. pose proof (built_inv s B) as [R W O P T]. split; [exact R|]. split; [exact W|]. split; [exact O|]. split; [exact P|].
  intros l r K. destruct (kwell_label _ _ _ W K) as [N E]. split; [exact N|]. split; [exact E|].
  destruct (T l r K) as [n Tn]. exact (trusted_in_trusted _ _ _ Tn).
Qed.
End WithCrypto.

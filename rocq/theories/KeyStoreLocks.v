(** Facts about key stores: serialisation, locking and messaging. *)
From Verif Require Export KeyStoreFacts StoreFacts.
Local Open Scope Z_scope.

(** *** JSON *)
Lemma int_jkrec r : int_json (jkrec r).
Proof.
  destruct r as [r|]; [|exact I]. unfold jkrec. rewrite int_json_obj.
  repeat (apply Forall_cons; split); cbn [snd]; try apply Forall_nil; auto using int_jint, int_jbytes.
  - exact I.
  - apply int_jmap. intros x. exact I.
Qed.
Lemma int_jkstore s : int_json (jkstore s).
Proof.
  unfold jkstore. rewrite int_json_obj.
  repeat (apply Forall_cons; split); cbn [snd]; try apply Forall_nil; auto using int_jint, int_jbytes.
  apply int_jmap, int_jkrec.
Qed.
Lemma depth_jkrec r : depth (jkrec r) <= 2.
Proof.
  destruct r as [r|]; [|cbn; lia]. unfold jkrec. apply depth_obj; [lia|]. split; [lia|].
  pose proof (depth_jbytes (krKeys r)). pose proof (depth_jbytes (krSig r)). pose proof (depth_jbytes (krSigner r)).
  pose proof (depth_jmap JStr (krMeta r) 0 ltac:(lia) ltac:(cbn; lia)).
  repeat (apply Forall_cons; split); cbn [snd jint depth]; try apply Forall_nil; lia.
Qed.
Lemma depth_jkstore s : depth (jkstore s) <= 10000.
Proof.
  unfold jkstore. apply depth_obj; [lia|]. split; [lia|]. pose proof (depth_jmap jkrec (ksKeys s) 2 ltac:(lia) depth_jkrec).
  pose proof (depth_jbytes (ksBlob s)). pose proof (depth_jbytes (ksPub s)). pose proof (depth_jbytes (ksExport s)).
  repeat (apply Forall_cons; split); cbn [snd jint depth]; try apply Forall_nil; lia.
Qed.
Definition reload_krec (r : krec) : krec :=
  KRec (san (krLabel r)) (krVersion r) (krTime r) (krKeys r) (krSig r) (krSigner r) (krSigTime r)
    (option_map (fun m => reins san (sorted_entries m) ∅) (krMeta r)).
Definition reload_keys (m : option (gmap bytes (option krec))) : option (gmap bytes (option krec)) :=
  option_map (fun m => reins (option_map reload_krec) (sorted_entries m) ∅) m.
Lemma krec_field_eqs j c :
  krec_field (bs "Label") j c = match dec_str (krLabel c) j with Some v => Some (KRec v (krVersion c) (krTime c) (krKeys c) (krSig c) (krSigner c) (krSigTime c) (krMeta c)) | None => None end /\
  krec_field (bs "Version") j c = match dec_int (krVersion c) j with Some v => Some (KRec (krLabel c) v (krTime c) (krKeys c) (krSig c) (krSigner c) (krSigTime c) (krMeta c)) | None => None end /\
  krec_field (bs "Timestamp") j c = match dec_int (krTime c) j with Some v => Some (KRec (krLabel c) (krVersion c) v (krKeys c) (krSig c) (krSigner c) (krSigTime c) (krMeta c)) | None => None end /\
  krec_field (bs "Keys") j c = match dec_bytes (krKeys c) j with Some v => Some (KRec (krLabel c) (krVersion c) (krTime c) v (krSig c) (krSigner c) (krSigTime c) (krMeta c)) | None => None end /\
  krec_field (bs "KeySignature") j c = match dec_bytes (krSig c) j with Some v => Some (KRec (krLabel c) (krVersion c) (krTime c) (krKeys c) v (krSigner c) (krSigTime c) (krMeta c)) | None => None end /\
  krec_field (bs "KeySigner") j c = match dec_bytes (krSigner c) j with Some v => Some (KRec (krLabel c) (krVersion c) (krTime c) (krKeys c) (krSig c) v (krSigTime c) (krMeta c)) | None => None end /\
  krec_field (bs "SignatureTime") j c = match dec_int (krSigTime c) j with Some v => Some (KRec (krLabel c) (krVersion c) (krTime c) (krKeys c) (krSig c) (krSigner c) v (krMeta c)) | None => None end /\
  krec_field (bs "Metadata") j c = match dec_map (dec_str []) (krMeta c) j with Some v => Some (KRec (krLabel c) (krVersion c) (krTime c) (krKeys c) (krSig c) (krSigner c) (krSigTime c) v) | None => None end.
Proof. destruct c. split_and!; reflexivity. Qed.
Lemma kstore_field_eqs j c :
  kstore_field (bs "Version") j c = match dec_int (ksVersion c) j with Some v => Some (KStore v (ksTime c) (ksKeys c) (ksBlob c) (ksPub c) (ksExport c) (ksPriv c) (ksLocked c)) | None => None end /\
  kstore_field (bs "Timestamp") j c = match dec_int (ksTime c) j with Some v => Some (KStore (ksVersion c) v (ksKeys c) (ksBlob c) (ksPub c) (ksExport c) (ksPriv c) (ksLocked c)) | None => None end /\
  kstore_field (bs "Keys") j c = match dec_map (dec_ptr dec_krec) (ksKeys c) j with Some v => Some (KStore (ksVersion c) (ksTime c) v (ksBlob c) (ksPub c) (ksExport c) (ksPriv c) (ksLocked c)) | None => None end /\
  kstore_field (bs "PrivateKey") j c = match dec_bytes (ksBlob c) j with Some v => Some (KStore (ksVersion c) (ksTime c) (ksKeys c) v (ksPub c) (ksExport c) (ksPriv c) (ksLocked c)) | None => None end /\
  kstore_field (bs "PublicKey") j c = match dec_bytes (ksPub c) j with Some v => Some (KStore (ksVersion c) (ksTime c) (ksKeys c) (ksBlob c) v (ksExport c) (ksPriv c) (ksLocked c)) | None => None end /\
  kstore_field (bs "ExportKey") j c = match dec_bytes (ksExport c) j with Some v => Some (KStore (ksVersion c) (ksTime c) (ksKeys c) (ksBlob c) (ksPub c) v (ksPriv c) (ksLocked c)) | None => None end.
Proof. destruct c. split_and!; reflexivity. Qed.

Definition go_krec (r : krec) : Prop := int64 (krVersion r) /\ int64 (krTime r) /\ int64 (krSigTime r).
Ltac kproj := cbn [krLabel krVersion krTime krKeys krSig krSigner krSigTime krMeta ksVersion ksTime ksKeys ksBlob ksPub ksExport ksPriv ksLocked].
Lemma dec_krec_jkrec r : go_krec r -> dec_krec (san_json (jkrec (Some r))) = Some (reload_krec r).
Proof.
  intros (G1 & G2 & G3). unfold dec_krec, jkrec. cbn [san_json map fst snd]. rewrite !san_id_ascii by reflexivity.
  rewrite !san_jint, !san_jbytes. unfold dec_struct. cbn [dec_fields].
  rewrite (proj1 (krec_field_eqs _ _)). kproj. cbn [dec_str].
  rewrite (proj1 (proj2 (krec_field_eqs _ _))). kproj. rewrite dec_int_jint by exact G1.
  rewrite (proj1 (proj2 (proj2 (krec_field_eqs _ _)))). kproj. rewrite dec_int_jint by exact G2.
  rewrite (proj1 (proj2 (proj2 (proj2 (krec_field_eqs _ _))))). kproj. rewrite dec_bytes_jbytes.
  rewrite (proj1 (proj2 (proj2 (proj2 (proj2 (krec_field_eqs _ _)))))). kproj. rewrite dec_bytes_jbytes.
  rewrite (proj1 (proj2 (proj2 (proj2 (proj2 (proj2 (krec_field_eqs _ _))))))). kproj. rewrite dec_bytes_jbytes.
  rewrite (proj1 (proj2 (proj2 (proj2 (proj2 (proj2 (proj2 (krec_field_eqs _ _)))))))). kproj. rewrite dec_int_jint by exact G3.
  rewrite (proj2 (proj2 (proj2 (proj2 (proj2 (proj2 (proj2 (krec_field_eqs _ _)))))))). kproj.
  rewrite (dec_map_jmap JStr (dec_str []) san); [reflexivity|]. intros m k x _ _. reflexivity.
Qed.
Lemma dec_ptr_jkrec r : (forall r', r = Some r' -> go_krec r') -> dec_ptr dec_krec (san_json (jkrec r)) = Some (option_map reload_krec r).
Proof. intros G. destruct r as [r|]; [|reflexivity]. unfold dec_ptr. rewrite dec_krec_jkrec by auto. reflexivity. Qed.
Lemma dec_kstore_jkstore s : go_kstore s ->
  dec_kstore (san_json (jkstore s)) = Some (KStore (ksVersion s) (ksTime s) (reload_keys (ksKeys s)) (ksBlob s) (ksPub s) (ksExport s) None false).
Proof.
  intros (G1 & G2 & G3). unfold dec_kstore, jkstore. cbn [san_json map fst snd]. rewrite !san_id_ascii by reflexivity.
  rewrite !san_jint, !san_jbytes. unfold dec_struct. cbn [dec_fields].
  rewrite (proj1 (kstore_field_eqs _ _)). kproj. rewrite dec_int_jint by exact G1.
  rewrite (proj1 (proj2 (kstore_field_eqs _ _))). kproj. rewrite dec_int_jint by exact G2.
  rewrite (proj1 (proj2 (proj2 (kstore_field_eqs _ _)))). kproj.
  rewrite (dec_map_jmap jkrec (dec_ptr dec_krec) (option_map reload_krec)).
  2:{ intros m k x E H. apply dec_ptr_jkrec. intros r ->. apply (G3 k). exists m. auto. }
  rewrite (proj1 (proj2 (proj2 (proj2 (kstore_field_eqs _ _))))). kproj. rewrite dec_bytes_jbytes.
  rewrite (proj1 (proj2 (proj2 (proj2 (proj2 (kstore_field_eqs _ _)))))). kproj. rewrite dec_bytes_jbytes.
  rewrite (proj2 (proj2 (proj2 (proj2 (proj2 (kstore_field_eqs _ _)))))). kproj. rewrite dec_bytes_jbytes. reflexivity.
Qed.
Lemma reload_keys_text s : text_kstore s -> reload_keys (ksKeys s) = ksKeys s.
Proof.
  intros T. unfold text_kstore in T. destruct (ksKeys s) as [m|]; [|reflexivity]. cbn [reload_keys option_map]. f_equal.
  rewrite reins_san by (intros k x H; apply san_utf8, text_utf8; exact (proj1 (T m k x eq_refl H))).
  apply map_eq. intros k. rewrite lookup_fmap. destruct (m !! k) as [[r|]|] eqn:E; cbn [fmap option_fmap option_map]; auto.
  f_equal. f_equal. destruct (T m k (Some r) eq_refl E) as [_ T2]. destruct (T2 r eq_refl) as [T3 T4].
  destruct r as [l ve tm ks sg si st md]; unfold reload_krec; kproj; cbn [krLabel krMeta] in T3, T4. f_equal.
  - apply san_utf8, text_utf8. assumption.
  - destruct md as [md|]; [|reflexivity]. cbn [option_map]. f_equal.
    rewrite reins_san by (intros k' x H; apply san_utf8, text_utf8; exact (proj1 (T4 md k' x eq_refl H))).
    apply map_eq. intros k'. rewrite lookup_fmap. destruct (md !! k') as [x|] eqn:E'; cbn [fmap option_fmap option_map]; [|reflexivity].
    f_equal. apply san_utf8, text_utf8. exact (proj2 (T4 md k' x eq_refl E')).
Qed.
Lemma dump_json s : ks_dump s = print (jkstore s).
Proof. reflexivity. Qed.
Section WithCrypto.
Context {C : Crypto} {L : CryptoLaws}.

Lemma load_dump s f path orNew now now2 g : ready s -> go_kstore s -> text_kstore s -> f !! path = Some (ks_dump s) ->
  load_kstore f path orNew now now2 g = Ret (Some (closed_copy s), g).
Proof.
  intros R G T F. unfold load_kstore, read_file. rewrite F, dump_json, (parse_print _ (int_jkstore s) (depth_jkstore s)), dec_kstore_jkstore by assumption.
  rewrite reload_keys_text by assumption. kproj. unfold kkeys. kproj.
  destruct (ksKeys s) as [m|] eqn:EK; [|destruct R as (_ & _ & []); assumption]. cbn [from_option id].
  match goal with |- (if negb (ks_quick ?x) then _ else _) = _ => assert (ks_quick x = true) as -> end.
  { apply ks_quick_iff. destruct R as (R1 & R2 & _). split; [exact R1|]. split; [exact R2|]. discriminate. }
  cbn [negb]. unfold closed_copy. rewrite EK. reflexivity.
Qed.
(** Whatever is loaded has the keys map and no private key. *)
Lemma load_inv f path orNew now now2 g s g' data : load_kstore f path orNew now now2 g = Ret (Some s, g') -> f !! path = Some data ->
  ready s /\ ksPriv s = None /\ (ksLocked s = true <-> ksBlob s <> None) /\ g' = g.
Proof.
  unfold load_kstore, read_file. intros H F. rewrite F in H. destruct (parse_json data) as [j|]; [|discriminate H].
  destruct (dec_kstore j) as [s0|] eqn:D; [|discriminate H].
  assert (ksPriv s0 = None /\ ksLocked s0 = false) as [P0 L0].
  { clear H. unfold dec_kstore, dec_struct in D. destruct j; try discriminate D; try (injection D as <-; split; reflexivity).
    assert (forall l c c', dec_fields kstore_field l c = Some c' -> ksPriv c' = ksPriv c /\ ksLocked c' = ksLocked c) as X.
    { induction l0 as [|[k v] l0 IH]; intros c c' E; [injection E as <-; auto|]. cbn [dec_fields] in E.
      destruct (kstore_field k v c) as [c1|] eqn:E1; [|discriminate E].
      destruct (IH _ _ E) as [-> ->]. clear IH E. unfold kstore_field in E1. destruct c as [ve t ks b p e pr lk].
      repeat (match type of E1 with context [field_is ?a ?b] => destruct (field_is a b) end;
        [match type of E1 with match ?e with _ => _ end = _ => destruct e; [|discriminate E1] end; injection E1 as <-; auto|]).
      injection E1 as <-. auto. }
    apply X in D. exact D. }
  cbn zeta in H. match type of H with (if negb (ks_quick ?x) then _ else _) = _ => destruct (ks_quick x) eqn:Q end; cbn [negb] in H; [|discriminate H].
  injection H as <- <-. apply ks_quick_iff in Q. split; [exact Q|]. kproj. split; [exact P0|]. split; [|reflexivity].
  destruct (ksBlob s0); [split; [discriminate|reflexivity]|]. rewrite L0. split; [discriminate|]. intros []. reflexivity.
Qed.

(** *** Validity *)
Lemma marshal_full e v : marshal_public (Some (PubKey (Some e) (Some v))) = Ret (Some (e ++ v)).
Proof. reflexivity. Qed.
Lemma ks_valid_dec s : go_priv s -> (ks_valid s = Ret true /\ healthy s) \/ (ks_valid s = Ret false /\ ~ healthy s).
Proof.
  intros GP. unfold ks_valid. destruct (ks_quick s) eqn:Q; cbn [negb].
  2:{ right. split; [reflexivity|]. apply ks_quick_not in Q. intros (R & _). contradiction. }
  apply ks_quick_iff in Q.
  assert (forall b, (b = true <-> (ksLocked s = false -> exists k, ksPriv s = Some k /\ owns s k)) ->
    ((if negb b then Ret false else match ksPub s with None => Ret false | Some p => match unmarshal_public p with None => Ret false | Some _ => Ret true end end) = Ret true /\ healthy s) \/
    ((if negb b then Ret false else match ksPub s with None => Ret false | Some p => match unmarshal_public p with None => Ret false | Some _ => Ret true end end) = Ret false /\ ~ healthy s)) as X.
  { intros b Hb. destruct b; cbn [negb].
    2:{ right. split; [reflexivity|]. intros (_ & _ & H). apply Hb in H. discriminate H. }
    destruct (ksPub s) as [p|] eqn:EP.
    2:{ right. split; [reflexivity|]. intros (_ & H & _). unfold owner in H. rewrite EP in H. discriminate H. }
    destruct (unmarshal_public p) as [pp|] eqn:U.
    - left. split; [reflexivity|]. split; [exact Q|]. split; [|apply Hb; reflexivity]. unfold owner. rewrite EP. cbn [octets_of].
      apply unmarshal_public_total. eauto.
    - right. split; [reflexivity|]. intros (_ & H & _). unfold owner in H. rewrite EP in H. cbn [octets_of] in H.
      apply unmarshal_public_total in H as [pp E]. congruence. }
  destruct (ksLocked s) eqn:Lk.
  - cbn [obind]. apply (X true). split; [intros _ [=]|reflexivity].
  - destruct (priv_valid (ksPriv s)) eqn:V; cbn [negb obind].
    2:{ apply (X false). split; [discriminate|]. intros H. destruct (H eq_refl) as (k & E & d & sg & e & v & -> & _).
        rewrite E in V. discriminate V. }
    apply priv_valid_iff in V as (d & sg & e & v & E). rewrite E. cbn [deref obind kPub full_priv]. rewrite marshal_full. cbn [obind].
    apply X. rewrite bool_decide_eq_true. rewrite obytes_octets. fold (owner s). split.
    + intros EO _. exists (full_priv d sg e v). split; [exact E|]. exists d, sg, e, v. split; [reflexivity|]. split; [apply GP; exact E|].
      symmetry. exact EO.
    + intros H. destruct (H eq_refl) as (k & E' & d' & sg' & e' & v' & -> & _ & EO). rewrite E in E'. injection E' as <- <- <- <-. auto.
Qed.
Lemma ks_valid_true s : go_priv s -> ks_valid s = Ret true <-> healthy s.
Proof. intros G. destruct (ks_valid_dec s G) as [[-> H]|[-> H]]; split; auto; [discriminate|contradiction]. Qed.
Lemma ks_valid_false s : go_priv s -> ks_valid s = Ret false <-> ~ healthy s.
Proof. intros G. destruct (ks_valid_dec s G) as [[-> H]|[-> H]]; split; auto; [discriminate|contradiction]. Qed.

(** *** Locking *)
Lemma priv_zero_owned s k : owns s k -> exists z, priv_zero (Some k) = Ret z /\ wiped_key k z.
Proof.
  intros (d & sg & e & v & -> & _). eexists. split; [reflexivity|]. exists d, sg. cbn [kD kS kPub]. rewrite !zero_zeros. auto.
Qed.
Lemma lock_exact s : go_priv s ->
  (~ healthy s -> ks_lock s = Ret (false, s, None)) /\
  (healthy s -> ksLocked s = true -> ks_lock s = Ret (true, s, None)) /\
  (healthy s -> ksLocked s = false -> exists k z, ksPriv s = Some k /\ wiped_key k z /\
     ks_lock s = Ret (true, with_priv s None true, Some z)).
Proof.
  intros G. unfold ks_lock. split_and!.
  - intros H. apply ks_valid_false in H; [|exact G]. rewrite H. reflexivity.
  - intros H E. apply ks_valid_true in H; [|exact G]. rewrite H, E. reflexivity.
  - intros H E. pose proof H as (_ & _ & O). destruct (O E) as (k & Ek & Ok).
    apply ks_valid_true in H; [|exact G]. rewrite H, E, Ek. cbn [obind negb].
    destruct (priv_zero_owned s k Ok) as (z & -> & Hz). cbn [obind]. exists k, z. auto.
Qed.
Lemma lock_with_exact s pass g : go_priv s ->
  (~ healthy s -> ks_lock_with s pass g = Ret (false, s, None, g)) /\
  (healthy s -> ksLocked s = true -> ks_lock_with s pass g = Ret (true, s, None, g)) /\
  (healthy s -> ksLocked s = false -> starved g 56 -> exists g', ks_lock_with s pass g = Ret (false, with_blob s None, None, g')) /\
  (healthy s -> ksLocked s = false -> forall salt nonce g', length salt = 32%nat -> length nonce = 24%nat -> delivers g (salt ++ nonce) g' ->
     exists k z blob, ksPriv s = Some k /\ wiped_key k z /\ length blob = 252%nat /\ unlock_key blob pass = Ret (Some k) /\
       ks_lock_with s pass g = Ret (true, with_priv (with_blob s (Some blob)) None true, Some z, g')).
Proof.
  intros G. unfold ks_lock_with. split_and!.
  - intros H. apply ks_valid_false in H; [|exact G]. rewrite H. reflexivity.
  - intros H E. apply ks_valid_true in H; [|exact G]. rewrite H, E. reflexivity.
  - intros H E S. pose proof H as (_ & _ & O). destruct (O E) as (k & Ek & d & sg & e & v & -> & Ok).
    apply ks_valid_true in H; [|exact G]. rewrite H, E, Ek. cbn [obind negb].
    destruct (proj2 (lock_key_fails (Some (full_priv d sg e v)) pass g) eq_refl S) as [g' E'].
    unfold full_priv in E'. rewrite E'. cbn [obind]. eauto.
  - intros H E salt nonce g' Hs Hn D. pose proof H as (_ & _ & O). destruct (O E) as (k & Ek & Ok).
    apply ks_valid_true in H; [|exact G]. rewrite H, E, Ek. cbn [obind negb].
    destruct (lock_unlock k pass g salt nonce g') as (l & Lk & Hl & U); try assumption.
    { destruct Ok as (d & sg & e & v & -> & _). reflexivity. }
    { apply G. exact Ek. }
    rewrite Lk. cbn [obind with_blob ksPriv]. rewrite Ek.
    destruct (priv_zero_owned s k Ok) as (z & -> & Hz). cbn [obind]. exists k, z, l. auto.
Qed.

(** *** Unlocking *)
Lemma unlock_quick now s pass : ready s -> ks_unlock now s pass =
  if negb (ksLocked s) then Ret (true, s) else
  let! k := unlock_key (obytes (ksBlob s)) pass in
  match k with
  | None => Ret (false, s)
  | Some k =>
      let! pub := marshal_public (kPub k) in
      match pub with
      | None => let! _ := priv_zero (Some k) in Ret (false, s)
      | Some pub =>
          let s := with_pub (with_priv s (Some k) false) (Some pub) in
          match ksExport s with
          | Some _ => Ret (negb (ksLocked s), s)
          | None =>
              let! v := certify (ksPriv s) pub pub now in
              match v with
              | None => let! r := ks_lock s in let '(_, s, _) := r in Ret (false, s)
              | Some v => let s := with_export s (Some (serialise v)) in Ret (negb (ksLocked s), s)
              end
          end
      end
  end.
Proof. intros R. unfold ks_unlock. rewrite (proj2 (ks_quick_iff s) R). reflexivity. Qed.
Lemma certify_full d sg e v public signer now :
  certify (Some (full_priv d sg e v)) public signer now =
  Ret (Some (VKey public signer now (ed_sign sg (public ++ signer ++ be 8 (now mod 2 ^ 64))))).
Proof. reflexivity. Qed.
(** The store after an Unlock that finds the key [full_priv d sg e v]. *)
Definition unlocked (now : Z) (s : kstore) (d sg e v : bytes) : kstore :=
  KStore (ksVersion s) (ksTime s) (ksKeys s) (ksBlob s) (Some (e ++ v))
    (match ksExport s with
     | Some x => Some x
     | None => Some (serialise (VKey (e ++ v) (e ++ v) now (ed_sign sg ((e ++ v) ++ (e ++ v) ++ be 8 (now mod 2 ^ 64)))))
     end) (Some (full_priv d sg e v)) false.
Lemma unlock_key_full blob pass k : unlock_key blob pass = Ret (Some k) ->
  exists d sg e v, k = full_priv d sg e v /\ wf_priv k.
Proof.
  intros H. apply unlock_key_exact in H as (out & _ & U). apply unmarshal_private_exact in U as (d & s & e & v & rest & _ & ->).
  eexists _, _, _, _. split; [reflexivity|]. unfold wf_priv, wf_pub, arr. cbn [kD kS kPub pE pV].
  rewrite <- !fit_copy_into, !length_copy_into. auto.
Qed.
Lemma unlock_finds now s pass d sg e v : ready s -> ksLocked s = true -> unlock_key (octets_of (ksBlob s)) pass = Ret (Some (full_priv d sg e v)) ->
  ks_unlock now s pass = Ret (true, unlocked now s d sg e v).
Proof.
  intros R Lk U. rewrite unlock_quick, Lk by assumption. cbn [negb]. rewrite obytes_octets, U. cbn [obind kPub full_priv]. rewrite marshal_full. cbn [obind].
  destruct s as [ve t ks b p ex pr lk]. cbn [ksExport with_pub with_priv ksLocked ksPriv negb].
  destruct ex as [x|]; [reflexivity|]. rewrite (certify_full d sg e v). reflexivity.
Qed.
Lemma unlock_refuses now s pass : ready s -> ksLocked s = true -> (forall k, unlock_key (octets_of (ksBlob s)) pass <> Ret (Some k)) ->
  ks_unlock now s pass = Ret (false, s) \/ ks_unlock now s pass = Panic.
Proof.
  intros R Lk U. rewrite unlock_quick, Lk by assumption. cbn [negb]. rewrite obytes_octets.
  destruct (unlock_key (octets_of (ksBlob s)) pass) as [[k|]|]; cbn [obind]; [|left; reflexivity|right; reflexivity].
  exfalso. eapply U. reflexivity.
Qed.
Lemma unlock_inv now s pass b s' : ks_unlock now s pass = Ret (b, s') ->
  (s' = s /\ (b = false \/ ready s /\ ksLocked s = false)) \/
  (b = true /\ ready s /\ ksLocked s = true /\ exists d sg e v, unlock_key (octets_of (ksBlob s)) pass = Ret (Some (full_priv d sg e v)) /\
     wf_priv (full_priv d sg e v) /\ s' = unlocked now s d sg e v).
Proof.
  intros H. destruct (ks_quick s) eqn:Q; [|unfold ks_unlock in H; rewrite Q in H; injection H as <- <-; auto].
  apply ks_quick_iff in Q. destruct (ksLocked s) eqn:Lk.
  2:{ rewrite unlock_quick, Lk in H by assumption. cbn [negb] in H. injection H as <- <-. auto. }
  destruct (unlock_key (octets_of (ksBlob s)) pass) as [[k|]|] eqn:U.
  - destruct (unlock_key_full _ _ _ U) as (d & sg & e & v & -> & W). rewrite (unlock_finds now s pass d sg e v) in H by assumption.
    injection H as <- <-. right. split_and!; auto. exists d, sg, e, v. auto.
  - rewrite unlock_quick, Lk in H by assumption. cbn [negb] in H. rewrite obytes_octets, U in H. cbn [obind] in H. injection H as <- <-. auto.
  - rewrite unlock_quick, Lk in H by assumption. cbn [negb] in H. rewrite obytes_octets, U in H. discriminate H.
Qed.
End WithCrypto.

(** Properties C44-C53: the key store. *)
From Verif Require Export KeyStoreClaims GoClaims Toy.
Local Open Scope Z_scope.

(** Stores for the examples, under the toy primitives: an owner who added two
    keys, the second signed by the first. *)
Definition kd (b : byte) : privkey := keypair (C:=toy) (replicate 32 b) (replicate 32 b).
Definition kdp (b : byte) : bytes := pub_of (C:=toy) (replicate 32 b) (replicate 32 b).
Definition kd0 : option kstore := match new_kstore (C:=toy) 5 6 (Some (kd x05)) with Ret s => s | Panic => None end.
Definition kd1 : option kstore :=
  s ← kd0; match ks_add (C:=toy) 7 8 s (bs "bob") (kdp x06) None with Ret (true, s) => Some s | _ => None end.
Definition kd_cert : bytes :=
  der_vkey (VKey (kdp x07) (kdp x06) 9 (ed_sign (replicate 32 x06 ++ ed_pub (Crypto:=toy) (replicate 32 x06)) (kdp x07 ++ kdp x06 ++ be 8 9))).
Definition kd_order (s : kstore) : korder := match ksKeys s with Some m => map_to_list m | None => [] end.
Definition kd2 : option kstore :=
  s ← kd1; match import_verified (C:=toy) (kd_order s) (kd_order s) 9 s (bs "carol") kd_cert with Ret (true, s) => Some s | _ => None end.
Definition holds_of {A} (o : option A) (p : A -> bool) : bool := match o with Some a => p a | None => false end.
Definition gives {A} `{EqDecision A} (o : outcome A) (a : A) : bool := match o with Ret x => bool_decide (x = a) | Panic => false end.
Definition built_by {A} (o : outcome A) (p : A -> bool) : bool := match o with Ret x => p x | Panic => false end.
(** C44. VerifyChain and KeyAudit are sound, unless a file holds a record labelled "self". *)
Theorem C44_chain_sound :
  forall (C : Crypto) os f s l,
    orders s os -> (forall k r, krecord s k r -> krLabel r <> bs "self") ->
    verify_chain os f s l = Ret (Some true) -> l = bs "self" \/ trusted s l.
Proof. exact @verify_chain_sound. Qed.
Print Assumptions C44_chain_sound.

Theorem C44_audit_sound :
  forall (C : Crypto) os f s labels,
    (forall i, orders s (os i)) -> (forall k r, krecord s k r -> krLabel r <> bs "self") ->
    an_order s labels -> key_audit os f s labels = Ret (Some true) -> forall l, kpresent s l -> l = bs "self" \/ trusted s l.
Proof. exact @key_audit_sound. Qed.
Print Assumptions C44_audit_sound.

Theorem C44_self_record_refuted :
  forall (C : Crypto) (L : CryptoLaws) d seed da sa X blob f path orNew now now2 g,
    length sa = 32%nat -> pub_of da sa <> pub_of d seed -> X <> pub_of da sa ->
    f !! path = Some (ks_dump (forged d seed da sa X blob)) ->
    exists s, load_kstore f path orNew now now2 g = Ret (Some s, g) /\ owner s = pub_of d seed /\ ~ trusted s (bs "evil") /\
      (exists r, krecord s (bs "evil") r /\ subject r = X) /\
      (forall os n, orders s os -> verify_chain os (S n) s (bs "evil") = Ret (Some true)) /\
      (forall o1 o2 n l Y t, an_order s o1 -> an_order s o2 -> l <> bs "self" -> l <> bs "evil" -> zlen Y < 2 ^ 29 -> int64 t ->
         exists cert s', import_verified o1 o2 n s l cert = Ret (true, s') /\ parse_vkey cert =
           Some (VKey Y (pub_of da sa) t (ed_sign (sa ++ ed_pub sa) (Y ++ pub_of da sa ++ be 8 (t mod 2 ^ 64))))).
Proof. exact @forged_accepts. Qed.
Print Assumptions C44_self_record_refuted.

Example C44_nonvacuous :
  holds_of kd2 (fun s => gives (verify_chain (C:=toy) (fun _ => kd_order s) 3 s (bs "carol")) (Some true)
    && gives (key_audit (C:=toy) (fun _ _ => kd_order s) 3 s (kd_order s)) (Some true)
    && gives (verify_chain (C:=toy) (fun _ => kd_order s) 3 s (bs "dave")) (Some false)) = true.
Proof. vm_compute. reflexivity. Qed.
Example C44_refuted_nonvacuous :
  pub_of (C:=toy) (replicate 32 x06) (replicate 32 x06) <> pub_of (C:=toy) (replicate 32 x05) (replicate 32 x05).
Proof. intros H. apply (f_equal (fun l => bool_decide (l = kdp x05))) in H. vm_compute in H. discriminate H. Qed.

(** C45. Stores made through the API. *)
Theorem C45_invariant :
  forall (C : Crypto) (L : CryptoLaws) s,
    built s -> ready s /\ kwell s /\ length (owner s) = 64%nat /\ (forall k, ksPriv s = Some k -> owns s k) /\
    (forall l r, krecord s l r -> l <> bs "self" /\ krLabel r = l /\ trusted s l).
Proof. exact @built_summary. Qed.
Print Assumptions C45_invariant.

Theorem C45_complete :
  forall (C : Crypto) (L : CryptoLaws) s,
    built s -> distinct_keys s -> exists n, forall f, (n <= f)%nat ->
    (forall l os, kpresent s l -> orders s os -> verify_chain os f s l = Ret (Some true)) /\
    (forall os labels, (forall i, orders s (os i)) -> an_order s labels -> key_audit os f s labels = Ret (Some true)).
Proof. exact @built_complete. Qed.
Print Assumptions C45_complete.

Example C45_nonvacuous : exists s, kd1 = Some s /\ built (C:=toy) s /\ distinct_keys s.
Proof.
  assert (exists s0, kd0 = Some s0 /\ new_kstore (C:=toy) 5 6 (Some (kd x05)) = Ret (Some s0)) as (s0 & E0 & N).
  { unfold kd0. destruct (new_kstore (C:=toy) 5 6 (Some (kd x05))) as [[s|]|] eqn:E; [eauto|exfalso..].
    - assert (holds_of kd0 (fun _ => true) = true) as X by (vm_compute; reflexivity). unfold kd0 in X. rewrite E in X. discriminate X.
    - assert (holds_of kd0 (fun _ => true) = true) as X by (vm_compute; reflexivity). unfold kd0 in X. rewrite E in X. discriminate X. }
  assert (built (C:=toy) s0) as B0 by (refine (bt_new 5 6 (kd x05) s0 _ _ N); [vm_compute; auto|lia]).
  pose proof N as N'. apply (new_kstore_exact (C:=toy)) in N' as (d & sg & e & v & Ek & Es).
  assert (ksPriv s0 = Some (kd x05) /\ ready s0 /\ ksLocked s0 = false /\ ksKeys s0 = Some ∅) as (P & R & Lk & Em).
  { rewrite Es. repeat split; discriminate. }
  destruct (add_keypair (C:=toy) (L:=toy_laws) 7 8 s0 (bs "bob") (kdp x06) None (replicate 32 x05) (replicate 32 x05)) as (s1 & A & Ad);
    [exact R|exact Lk|exact P|reflexivity|discriminate|intros (m & w & E & F); rewrite Em in E; injection E as <-; discriminate F|vm_compute; reflexivity|].
  exists s1. split; [unfold kd1; rewrite E0; cbn [mbind option_bind]; rewrite A; reflexivity|].
  split; [eapply bt_add; eauto|]. destruct Ad as (m & Em' & ->). rewrite Em in Em'. injection Em' as <-. split.
  - intros l l' r r' (m & [= <-] & K) (m' & [= <-] & K') _. cbn [ksKeys] in *.
    apply lookup_insert_Some in K as [[<- _]|[_ K]]; [|discriminate K]. apply lookup_insert_Some in K' as [[<- _]|[_ K']]; [reflexivity|discriminate K'].
  - intros l r (m & [= <-] & K). cbn [ksKeys] in K. apply lookup_insert_Some in K as [[<- [= <-]]|[_ K]]; [|discriminate K].
    unfold subject, owner. cbn [krKeys ksPub octets_of]. rewrite Es. cbn [ksPub octets_of]. injection Ek as <- <- <- <-.
    intros H. apply (f_equal (fun l => bool_decide (l = kdp x05))) in H. vm_compute in H. discriminate H.
Qed.

(** C46. Chains that do not end. *)
Theorem C46_never_ends :
  forall (C : Crypto) (L : CryptoLaws) s l,
    (exists os, orders s os /\ forall f, verify_chain os f s l = Ret None) <->
    ready s /\ l <> bs "self" /\ exists c, rtc (follows s) l c /\ tc (follows s) c c.
Proof. exact @never_ends. Qed.
Print Assumptions C46_never_ends.

Theorem C46_self_loop :
  forall (C : Crypto) s l r,
    ready s -> kwell s -> distinct_keys s -> krecord s l r -> signer r = subject r -> good_under r (subject r) ->
    forall os f, orders s os -> verify_chain os f s l = Ret None.
Proof. exact @self_loop. Qed.
Print Assumptions C46_self_loop.

Theorem C46_reachable :
  forall (C : Crypto) (L : CryptoLaws) d seed da sa n1 n2 n3 n4 n5 n6 n7 l1 l2 s0 sA,
    length d = 32%nat -> length seed = 32%nat -> length da = 32%nat -> length sa = 32%nat -> n2 <> 0 -> int64 n3 ->
    l1 <> bs "self" -> l1 <> [] -> l2 <> bs "self" -> l2 <> l1 -> pub_of da sa <> pub_of d seed ->
    new_kstore n1 n2 (Some (keypair d seed)) = Ret (Some s0) ->
    new_kstore n3 n4 (Some (keypair da sa)) = Ret (Some sA) ->
    exists cert s1 s2, ksExport sA = Some cert /\
      ks_add n5 n6 s0 l1 (pub_of da sa) None = Ret (true, s1) /\
      (forall o1 o2, an_order s1 o1 -> an_order s1 o2 -> import_verified_key o1 o2 n7 s1 l2 cert = Ret (true, s2)) /\
      (exists os, orders s2 os /\ forall f, verify_chain os f s2 l2 = Ret None) /\
      forall os f, orders (remove_key s2 l1) os -> verify_chain os f (remove_key s2 l1) l2 = Ret None.
Proof. exact @loop_reachable. Qed.
Print Assumptions C46_reachable.

Example C46_nonvacuous :
  holds_of kd0 (fun s0 => match new_kstore (C:=toy) 1 2 (Some (kd x06)) with
    | Ret (Some sA) => match ksExport sA with
      | Some cert => built_by (ks_add (C:=toy) 7 8 s0 (bs "bob") (kdp x06) None) (fun '(b, s1) => b &&
          built_by (import_verified_key (C:=toy) (kd_order s1) (kd_order s1) 9 s1 (bs "bob2") cert) (fun '(b, s2) => b &&
            let s3 := remove_key s2 (bs "bob") in gives (verify_chain (C:=toy) (fun _ => kd_order s3) 20 s3 (bs "bob2")) None))
      | None => false end
    | _ => false end) = true.
Proof. vm_compute. reflexivity. Qed.

(** C47. Import and AddKey. *)
Theorem C47_import_sound :
  forall (C : Crypto) o1 o2 now s l data s',
    kwell s -> an_order s o1 -> an_order s o2 ->
    import_verified o1 o2 now s l data = Ret (true, s') ->
    exists v, parse_vkey data = Some v /\ importable s l v /\
      added s l (KRec l 1 now (Some (vPublic v)) (Some (vSig v)) (Some (vSigner v)) (vTime v) None) s'.
Proof. exact @import_sound. Qed.
Print Assumptions C47_import_sound.

Theorem C47_import_possible :
  forall (C : Crypto) now s l data v,
    kwell s -> parse_vkey data = Some v -> importable s l v ->
    exists o1 o2 s', an_order s o1 /\ an_order s o2 /\ import_verified o1 o2 now s l data = Ret (true, s').
Proof. exact @import_possible. Qed.
Print Assumptions C47_import_possible.

Theorem C47_import_certain :
  forall (C : Crypto) o1 o2 now s l data v,
    kwell s -> distinct_keys s -> an_order s o1 -> an_order s o2 ->
    parse_vkey data = Some v -> importable s l v -> exists s', import_verified o1 o2 now s l data = Ret (true, s').
Proof. exact @import_certain. Qed.
Print Assumptions C47_import_certain.

Theorem C47_import_unchanged :
  forall (C : Crypto) o1 o2 now s l data s',
    import_verified o1 o2 now s l data = Ret (false, s') -> s' = s.
Proof. exact @import_false_unchanged. Qed.
Print Assumptions C47_import_unchanged.

Theorem C47_import_total :
  forall (C : Crypto) o1 o2 now s l data,
    kwell s -> an_order s o1 -> an_order s o2 -> exists r, import_verified o1 o2 now s l data = Ret r.
Proof. exact @import_total. Qed.
Print Assumptions C47_import_total.

Theorem C47_add_inv :
  forall (C : Crypto) now now2 s l peer md b s',
    ks_add now now2 s l peer md = Ret (b, s') ->
    (b = false /\ s' = s) \/
    (b = true /\ ready s /\ l <> bs "self" /\ ~ kpresent s l /\ ksLocked s = false /\ length peer = 64%nat /\
     exists k p sig, ksPriv s = Some k /\ kPub k = Some p /\ pub_valid (Some p) = true /\
       verify (Some p) (peer ++ owner s ++ be 8 (now mod 2 ^ 64)) sig = Ret true /\
       sign (Some k) (peer ++ owner s ++ be 8 (now mod 2 ^ 64)) = Ret (Some sig) /\
       added s l (KRec l 0 now2 (Some peer) (Some sig) (ksPub s) now (Some (default ∅ md))) s').
Proof. exact @add_inv. Qed.
Print Assumptions C47_add_inv.

Theorem C47_add_works :
  forall (C : Crypto) (L : CryptoLaws) now now2 s l peer md d seed,
    ready s -> ksLocked s = false -> ksPriv s = Some (keypair d seed) -> length seed = 32%nat ->
    l <> bs "self" -> ~ kpresent s l -> length peer = 64%nat ->
    exists s', ks_add now now2 s l peer md = Ret (true, s') /\
      added s l (KRec l 0 now2 (Some peer) (Some (ed_sign (seed ++ ed_pub seed) (peer ++ owner s ++ be 8 (now mod 2 ^ 64))))
                   (ksPub s) now (Some (default ∅ md))) s'.
Proof. exact @add_keypair. Qed.
Print Assumptions C47_add_works.

Theorem C47_pem_same :
  forall (C : Crypto) o1 o2 now s l v junk,
    import_verified_key o1 o2 now s l (serialise v ++ junk) = import_verified o1 o2 now s l (der_vkey v).
Proof. exact @import_serialised. Qed.
Print Assumptions C47_pem_same.

Example C47_nonvacuous :
  holds_of kd1 (fun s => built_by (import_verified (C:=toy) (kd_order s) (kd_order s) 9 s (bs "carol") kd_cert) (fun '(b, s') => b &&
      bool_decide (length (kd_order s') = 2%nat))
    && built_by (import_verified (C:=toy) (kd_order s) (kd_order s) 9 s (bs "bob") kd_cert) (fun '(b, _) => negb b)
    && built_by (import_verified (C:=toy) (kd_order s) (kd_order s) 9 s (bs "self") kd_cert) (fun '(b, _) => negb b)) = true.
Proof. vm_compute. reflexivity. Qed.

(** C48. Certificates. *)
Theorem C48_binds :
  forall v v',
    length (vSigner v) = 64%nat -> length (vSigner v') = 64%nat -> int64 (vTime v) -> int64 (vTime v') ->
    signature_data v = signature_data v' -> vPublic v = vPublic v' /\ vSigner v = vSigner v' /\ vTime v = vTime v'.
Proof. exact @signature_data_inj. Qed.
Print Assumptions C48_binds.

Theorem C48_lengths_needed :
  exists v v', signature_data v = signature_data v' /\ vPublic v <> vPublic v' /\ length (vPublic v) = 64%nat /\ length (vSigner v) = 64%nat.
Proof. exact @signature_data_ambiguous. Qed.
Print Assumptions C48_lengths_needed.

Theorem C48_sign_is_certificate :
  forall (C : Crypto) (L : CryptoLaws) s d seed X t o1 o2 now l,
    length d = 32%nat -> length seed = 32%nat -> holds_pair s d seed -> int64 t -> zlen X < 2 ^ 29 ->
    l <> bs "self" -> ~ kpresent s l ->
    exists sig s', ks_sign s (X ++ owner s ++ be 8 (t mod 2 ^ 64)) = Ret (Some sig) /\
      import_verified o1 o2 now s l (der_vkey (VKey X (owner s) t sig)) = Ret (true, s') /\
      exists r, krecord s' l r /\ subject r = X.
Proof. exact @sign_is_certificate. Qed.
Print Assumptions C48_sign_is_certificate.

Example C48_nonvacuous :
  holds_of kd0 (fun s => match ks_sign (C:=toy) s (kdp x09 ++ owner s ++ be 8 11) with
    | Ret (Some sig) => built_by (import_verified (C:=toy) [] [] 12 s (bs "mallory") (der_vkey (VKey (kdp x09) (owner s) 11 sig))) fst
    | _ => false end) = true.
Proof. vm_compute. reflexivity. Qed.

(** C49. Locked stores. *)
Theorem C49_locked_refuses :
  forall (C : Crypto) s,
    go_priv s -> ksLocked s = true ->
    (forall m, ks_sign s m = Ret None) /\ (forall m, ks_decrypt s m = Ret None) /\
    (forall l m g, ks_encrypt_sign_to s l m g = Ret (None, g)) /\ (forall l m, ks_decrypt_verify s l m = Ret None) /\
    (forall now now2 l peer md, ks_add now now2 s l peer md = Ret (false, s)) /\
    (forall os f now l, export_verified os f now s l = Ret (Some None)).
Proof. exact @locked_refuses. Qed.
Print Assumptions C49_locked_refuses.

Theorem C49_lock :
  forall s,
    go_priv s ->
    (~ healthy s -> ks_lock s = Ret (false, s, None)) /\
    (healthy s -> ksLocked s = true -> ks_lock s = Ret (true, s, None)) /\
    (healthy s -> ksLocked s = false -> exists k z, ksPriv s = Some k /\ wiped_key k z /\
       ks_lock s = Ret (true, with_priv s None true, Some z)).
Proof. exact @lock_exact. Qed.
Print Assumptions C49_lock.

Theorem C49_lock_with :
  forall (C : Crypto) (L : CryptoLaws) s pass g,
    go_priv s ->
    (~ healthy s -> ks_lock_with s pass g = Ret (false, s, None, g)) /\
    (healthy s -> ksLocked s = true -> ks_lock_with s pass g = Ret (true, s, None, g)) /\
    (healthy s -> ksLocked s = false -> starved g 56 -> exists g', ks_lock_with s pass g = Ret (false, with_blob s None, None, g')) /\
    (healthy s -> ksLocked s = false -> forall salt nonce g', length salt = 32%nat -> length nonce = 24%nat -> delivers g (salt ++ nonce) g' ->
       exists k z blob, ksPriv s = Some k /\ wiped_key k z /\ length blob = 252%nat /\ unlock_key blob pass = Ret (Some k) /\
         ks_lock_with s pass g = Ret (true, with_priv (with_blob s (Some blob)) None true, Some z, g')).
Proof. exact @lock_with_exact. Qed.
Print Assumptions C49_lock_with.

Theorem C49_no_key_held :
  forall (C : Crypto) (L : CryptoLaws) s,
    built s -> ksLocked s = true -> ksPriv s = None.
Proof. exact @built_locked. Qed.
Print Assumptions C49_no_key_held.

Theorem C49_public_same :
  forall (C : Crypto) s,
    go_priv s -> healthy s ->
    (forall l m g, ks_encrypt_to (with_priv s None true) l m g = ks_encrypt_to s l m g) /\
    (forall l m sig, ks_verify (with_priv s None true) l m sig = ks_verify s l m sig) /\
    (forall os f l, verify_chain os f (with_priv s None true) l = verify_chain os f s l) /\
    (forall o1 o2 now l data b s', import_verified o1 o2 now s l data = Ret (b, s') ->
       import_verified o1 o2 now (with_priv s None true) l data = Ret (b, with_priv s' None true)).
Proof. exact @public_ops_same. Qed.
Print Assumptions C49_public_same.

Theorem C49_export :
  forall (C : Crypto) os f now s l out,
    export_verified os f now s l = Ret (Some (Some out)) ->
    ready s /\ ksLocked s = false /\ verify_chain os f s l = Ret (Some true) /\
    (l = bs "self" /\ ksExport s = Some out \/
     exists subj sig, (l = bs "self" /\ subj = owner s \/ l <> bs "self" /\ exists r, krecord s l r /\ subject r = subj) /\
       sign (ksPriv s) (subj ++ owner s ++ be 8 (now mod 2 ^ 64)) = Ret (Some sig) /\
       out = serialise (VKey subj (owner s) now sig)).
Proof. exact @export_exact. Qed.
Print Assumptions C49_export.

Example C49_nonvacuous :
  holds_of kd1 (fun s => built_by (ks_sign (C:=toy) s (bs "m")) (fun o => bool_decide (is_Some o)) &&
    built_by (ks_lock s) (fun '(b, s', _) => b && ksLocked s' && gives (ks_sign (C:=toy) s' (bs "m")) None)) = true.
Proof. vm_compute. reflexivity. Qed.

(** C50. Locking and unlocking. *)
Theorem C50_roundtrip :
  forall (C : Crypto) (L : CryptoLaws) s pass g salt nonce g' now,
    go_priv s -> healthy s -> ksLocked s = false ->
    length salt = 32%nat -> length nonce = 24%nat -> delivers g (salt ++ nonce) g' ->
    exists blob z s' s2, ks_lock_with s pass g = Ret (true, s', Some z, g') /\
      ksLocked s' = true /\ ksPriv s' = None /\ ksBlob s' = Some blob /\ (exists k, ksPriv s = Some k /\ wiped_key k z) /\
      ks_unlock now s' pass = Ret (true, s2) /\ ksLocked s2 = false /\ ksPriv s2 = ksPriv s /\ ksKeys s2 = ksKeys s /\ owner s2 = owner s /\
      (ksExport s <> None -> s2 = with_blob s (Some blob)) /\ (forall m, ks_sign s2 m = ks_sign s m).
Proof. exact @lock_roundtrip. Qed.
Print Assumptions C50_roundtrip.

Theorem C50_unlock_exact :
  forall (C : Crypto) (L : CryptoLaws) now s pass,
    ready s -> ksLocked s = true ->
    (forall s', ks_unlock now s pass = Ret (true, s') <->
       exists out d sg e v, genuine_file pass out (octets_of (ksBlob s)) /\ unmarshal_private out = Ret (Some (full_priv d sg e v)) /\
         s' = unlocked now s d sg e v) /\
    ((forall out, ~ genuine_file pass out (octets_of (ksBlob s))) -> ks_unlock now s pass = Ret (false, s)).
Proof. exact @unlock_exact. Qed.
Print Assumptions C50_unlock_exact.

Theorem C50_unlocked_any :
  forall (C : Crypto) now s pass,
    ready s -> ksLocked s = false -> ks_unlock now s pass = Ret (true, s).
Proof. exact @unlock_unlocked. Qed.
Print Assumptions C50_unlocked_any.

Theorem C50_lock_loses :
  forall (C : Crypto) s,
    go_priv s -> healthy s -> ksLocked s = false -> ksBlob s = None ->
    exists s' z, ks_lock s = Ret (true, s', z) /\ ksPriv s' = None /\
      forall now pass, ks_unlock now s' pass = Ret (false, s').
Proof. exact @lock_loses. Qed.
Print Assumptions C50_lock_loses.

Theorem C50_new_store :
  forall (C : Crypto) (L : CryptoLaws) now now2 k s,
    wf_priv k -> now2 <> 0 -> new_kstore now now2 (Some k) = Ret (Some s) ->
    go_priv s /\ healthy s /\ ksLocked s = false /\ ksBlob s = None /\ ksPriv s = Some k /\ ksKeys s = Some ∅.
Proof. exact @new_no_blob. Qed.
Print Assumptions C50_new_store.

Theorem C50_lock_with_forgets :
  forall (C : Crypto) (L : CryptoLaws) s pass g,
    go_priv s -> healthy s -> ksLocked s = false -> starved g 56 ->
    exists s' g', ks_lock_with s pass g = Ret (false, s', None, g') /\ ksBlob s' = None /\
      exists s2 z, ks_lock s' = Ret (true, s2, z) /\ ksPriv s2 = None /\ forall now p, ks_unlock now s2 p = Ret (false, s2).
Proof. exact @lock_with_forgets. Qed.
Print Assumptions C50_lock_with_forgets.

Global Instance pubkey_eq_dec : EqDecision pubkey. Proof. solve_decision. Defined.
Global Instance privkey_eq_dec : EqDecision privkey. Proof. solve_decision. Defined.
Example C50_nonvacuous :
  holds_of kd1 (fun s => built_by (ks_lock_with (C:=toy) s (bs "pw") (map Some (replicate 56 x0a))) (fun '(b, s', _, _) => b && ksLocked s' &&
    built_by (ks_unlock (C:=toy) 20 s' (bs "pw")) (fun '(b, s2) => b && negb (ksLocked s2) && bool_decide (ksPriv s2 = ksPriv s)) &&
    built_by (ks_unlock (C:=toy) 20 s' (bs "no")) (fun '(b, s2) => negb b && ksLocked s2))) = true.
Proof. vm_compute. reflexivity. Qed.

(** C51. Serialised stores. *)
Theorem C51_public_only :
  forall s s',
    same_public s s' -> ks_dump s = ks_dump s'.
Proof. exact @dump_public. Qed.
Print Assumptions C51_public_only.

Theorem C51_determines :
  forall (C : Crypto) s s',
    ready s -> ready s' -> go_kstore s -> go_kstore s' -> text_kstore s -> text_kstore s' ->
    ks_dump s = ks_dump s' -> same_public s s'.
Proof. exact @dump_inj. Qed.
Print Assumptions C51_determines.

Theorem C51_dump_keystore :
  forall s,
    go_priv s -> exists s', dump_keystore s = Ret (ks_dump s, s') /\
    (healthy s -> ksPriv s' = None \/ ksLocked s = true) /\ same_public s s' /\ (~ healthy s -> s' = s).
Proof. exact @dump_keystore_exact. Qed.
Print Assumptions C51_dump_keystore.

Theorem C51_reload :
  forall (C : Crypto) s f path orNew now now2 g,
    ready s -> go_kstore s -> text_kstore s -> f !! path = Some (ks_dump s) ->
    load_kstore f path orNew now now2 g = Ret (Some (closed_copy s), g).
Proof. exact @load_dump. Qed.
Print Assumptions C51_reload.

Theorem C51_loads_exactly :
  forall (C : Crypto) f path orNew now now2 g s g' data,
    f !! path = Some data ->
    (load_kstore f path orNew now now2 g = Ret (Some s, g') <->
     g' = g /\ exists j s0, json_text data j /\ go_kstore_json j s0 /\ ksVersion s0 = 1 /\ ksTime s0 <> 0 /\
       s = KStore (ksVersion s0) (ksTime s0) (Some (default ∅ (ksKeys s0))) (ksBlob s0) (ksPub s0) (ksExport s0) None
             (match ksBlob s0 with None => false | Some _ => true end)).
Proof. exact @load_reads. Qed.
Print Assumptions C51_loads_exactly.

Theorem C51_loaded :
  forall (C : Crypto) f path orNew now now2 g s g' data,
    load_kstore f path orNew now now2 g = Ret (Some s, g') -> f !! path = Some data ->
    ready s /\ ksPriv s = None /\ (ksLocked s = true <-> ksBlob s <> None) /\ g' = g.
Proof. exact @load_inv. Qed.
Print Assumptions C51_loaded.

Theorem C51_keyless :
  forall (C : Crypto) s f path orNew now now2 g,
    ready s -> go_kstore s -> text_kstore s -> ksBlob s = None -> f !! path = Some (ks_dump s) ->
    exists s', load_kstore f path orNew now now2 g = Ret (Some s', g) /\ ksLocked s' = false /\ ksPriv s' = None /\
      (forall now pass, ks_unlock now s' pass = Ret (true, s')) /\ (forall m, ks_sign s' m = Ret None) /\
      (forall m sig, ks_verify s' (bs "self") m sig = Panic).
Proof. exact @keyless_load. Qed.
Print Assumptions C51_keyless.

Theorem C51_new_panics :
  forall (C : Crypto) f path now now2 g,
    f !! path = None ->
    (starved g 64 -> exists g', load_kstore f path true now now2 g = Ret (None, g')) /\
    (~ starved g 64 -> load_kstore f path true now now2 g = Panic) /\
    load_kstore f path false now now2 g = Ret (None, g).
Proof. exact @load_new. Qed.
Print Assumptions C51_new_panics.

Example C51_nonvacuous :
  holds_of kd1 (fun s => built_by (ks_lock_with (C:=toy) s (bs "pw") (map Some (replicate 56 x0a))) (fun '(_, s', _, _) =>
    built_by (load_kstore (C:=toy) {[bs "f" := ks_dump s']} (bs "f") false 1 2 []) (fun '(o, _) =>
      holds_of o (fun s2 => ksLocked s2 && bool_decide (ksBlob s2 = ksBlob s') && bool_decide (length (kd_order s2) = 1%nat))))) = true.
Proof. vm_compute. reflexivity. Qed.
Example C51_new_nonvacuous : ~ starved (map Some (replicate 64 x01)) 64.
Proof. intros H. exact (H (replicate 64 x01) [] eq_refl eq_refl). Qed.

(** C52. Messages. *)
Theorem C52_encrypt :
  forall (C : Crypto) (L : CryptoLaws) sa l sb d seed m g ep nonce g',
    length d = 32%nat -> length seed = 32%nat -> ready sa ->
    (l = bs "self" /\ owner sa = pub_of d seed \/ l <> bs "self" /\ exists r, krecord sa l r /\ subject r = pub_of d seed) ->
    holds_pair sb d seed -> 1 <= zlen m < 2 ^ 31 ->
    length ep = 32%nat -> length nonce = 24%nat -> delivers g (ep ++ nonce) g' ->
    exists c, ks_encrypt_to sa l m g = Ret (Some c, g') /\ ks_decrypt sb c = Ret (Some m).
Proof. exact @ks_encrypt_roundtrip. Qed.
Print Assumptions C52_encrypt.

Theorem C52_sign :
  forall (C : Crypto) (L : CryptoLaws) sa sb l d seed m,
    length d = 32%nat -> length seed = 32%nat -> holds_pair sa d seed -> ready sb -> knows sb l d seed ->
    exists sig, ks_sign sa m = Ret (Some sig) /\ ks_verify sb l m sig = Ret true.
Proof. exact @ks_sign_roundtrip. Qed.
Print Assumptions C52_sign.

Theorem C52_signcrypt :
  forall (C : Crypto) (L : CryptoLaws) sa sb la lb da seedA db seedB m g ep nonce g',
    length da = 32%nat -> length seedA = 32%nat -> length db = 32%nat -> length seedB = 32%nat ->
    holds_pair sa da seedA -> holds_pair sb db seedB -> knows sa lb db seedB -> knows sb la da seedA ->
    1 <= zlen m < 2 ^ 31 - 69 -> length ep = 32%nat -> length nonce = 24%nat -> delivers g (ep ++ nonce) g' ->
    exists c, ks_encrypt_sign_to sa lb m g = Ret (Some c, g') /\ ks_decrypt_verify sb la c = Ret (Some m).
Proof. exact @ks_signcrypt_roundtrip. Qed.
Print Assumptions C52_signcrypt.

Example C52_nonvacuous :
  holds_of kd1 (fun sa => match new_kstore (C:=toy) 1 2 (Some (kd x06)) with
    | Ret (Some s) => built_by (ks_add (C:=toy) 3 4 s (bs "alice") (kdp x05) None) (fun '(b, sb) => b &&
        built_by (ks_encrypt_sign_to (C:=toy) sa (bs "bob") (bs "hello") (map Some (replicate 56 x0a))) (fun '(c, _) =>
          holds_of c (fun c => gives (ks_decrypt_verify (C:=toy) sb (bs "alice") c) (Some (bs "hello")))) &&
        built_by (ks_encrypt_to (C:=toy) sa (bs "bob") (bs "hello") (map Some (replicate 56 x0a))) (fun '(c, _) =>
          holds_of c (fun c => gives (ks_decrypt (C:=toy) sb c) (Some (bs "hello")))) &&
        built_by (ks_sign (C:=toy) sa (bs "hello")) (fun c =>
          holds_of c (fun c => gives (ks_verify (C:=toy) sb (bs "alice") (bs "hello") c) true)))
    | _ => false end) = true.
Proof. vm_compute. reflexivity. Qed.

(** C53. Certificate text. *)
Theorem C53_roundtrip :
  forall v,
    small_vkey v -> parse_verified_key (serialise v) = Some v.
Proof. exact @parse_serialise. Qed.
Print Assumptions C53_roundtrip.

Theorem C53_body_exact :
  forall data v,
    parse_vkey data = Some v <-> der_certificate data (vPublic v) (vSigner v) (vTime v) (vSig v).
Proof. exact @parse_vkey_exact. Qed.
Print Assumptions C53_body_exact.

Theorem C53_body_roundtrip :
  forall v junk,
    small_vkey v -> parse_vkey (der_vkey v ++ junk) = Some v.
Proof. exact @parse_der_vkey. Qed.
Print Assumptions C53_body_roundtrip.

Theorem C53_type_mismatch :
  forall (C : Crypto) o1 o2 now s l data ty b,
    pem_decode data = Some (ty, b) -> ty <> bs "CRYPTUTIL VERIFIED KEY" ->
    parse_verified_key data = None /\ import_verified_key o1 o2 now s l data = Ret (false, s).
Proof. exact @type_mismatch. Qed.
Print Assumptions C53_type_mismatch.

Theorem C53_not_pem :
  forall (C : Crypto) o1 o2 now s l data,
    (forall u v, data <> u ++ bs "-----BEGIN " ++ v) ->
    parse_verified_key data = None /\ import_verified_key o1 o2 now s l data = Ret (false, s).
Proof. exact @not_pem. Qed.
Print Assumptions C53_not_pem.

Global Instance vkey_eq_dec : EqDecision vkey. Proof. solve_decision. Defined.
Example C53_nonvacuous :
  parse_verified_key (serialise (VKey (kdp x05) (kdp x06) (-7) (zeros 64))) = Some (VKey (kdp x05) (kdp x06) (-7) (zeros 64)).
Proof. apply (bool_decide_eq_true_1 _). vm_compute. reflexivity. Qed.


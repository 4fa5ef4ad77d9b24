(** Properties C66 and C67: the key server. *)
From Verif Require Export KeySrvStart PropsKeyStore.
Local Open Scope Z_scope.

(** For the examples: a certificate as text, and the choices of Go's maps. *)
Definition xk_cert : bytes := pem_encode VerifiedKeyType [] kd_cert.
Definition xk_ch (s : kstore) : choices := Ch (kd_order s) (kd_order s) (fun _ _ => kd_order s) (kd_order s) 5.
Definition xk_out (o : outcome (option (response * kstore))) : option (response * nat) :=
  match o with Ret (Some (r, s)) => Some (r, length (kd_order s)) | _ => None end.
Definition xk_do (s : option kstore) (c : command) : option (response * nat) := s ← s; xk_out (process (C:=toy) (xk_ch s) 9 s c).
Definition xk_then (c : command) : option kstore := s ← kd1; match process (C:=toy) (xk_ch s) 9 s c with Ret (Some (_, s')) => Some s' | _ => None end.
Global Instance response_eq_dec : EqDecision response. Proof. solve_decision. Defined.
(** C66. Requests are served one at a time, each once, and answered to whom they belong. *)
Theorem C66_serial :
  forall (C : Crypto) (L : CryptoLaws) path ks0 f now tr v,
    built ks0 -> runs path (serving ks0 f now) tr v -> serial ks0 (dones tr) (vKs v).
Proof. exact @srv_serial. Qed.
Print Assumptions C66_serial.

Theorem C66_life :
  forall (C : Crypto) (L : CryptoLaws) path ks0 f now tr v i,
    built ks0 -> runs path (serving ks0 f now) tr v ->
    (exists e, own i tr = [EArrive i (BadBody e)]) \/ exists q c r, command_of q = Some c /\ own i tr `prefix_of` life i q c r.
Proof. exact @srv_life. Qed.
Print Assumptions C66_life.

Theorem C66_answer :
  forall (C : Crypto) (L : CryptoLaws) path ks0 f now tr v i t a,
    built ks0 -> runs path (serving ks0 f now) tr v -> (t, EAnswer i a) ∈ tr ->
    exists q c r, command_of q = Some c /\ a = answer q r /\ own i tr = life i q c r /\ (Client i, c, r) ∈ dones tr.
Proof. exact @srv_answer. Qed.
Print Assumptions C66_answer.

Theorem C66_effect :
  forall (C : Crypto) (L : CryptoLaws) path ks0 f now tr v i t a,
    built ks0 -> runs path (serving ks0 f now) tr v -> (t, EAnswer i a) ∈ tr ->
    exists q c r p rest s s', own i tr = life i q c r /\ command_of q = Some c /\ a = answer q r /\
      dones tr = p ++ (Client i, c, r) :: rest /\ (forall x, x ∈ p ++ rest -> fst (fst x) <> Client i) /\
      serial ks0 p s /\ served s c r s'.
Proof. exact @srv_effect. Qed.
Print Assumptions C66_effect.

Theorem C66_real_time :
  forall (C : Crypto) (L : CryptoLaws) path ks0 f now tr v p q i j t a,
    built ks0 -> runs path (serving ks0 f now) tr v -> tr = p ++ q ->
    (t, EAnswer j a) ∈ p -> (forall t' x, (t', EArrive i x) ∉ p) ->
    (exists c r, (Client j, c, r) ∈ dones p) /\ forall c r, (Client i, c, r) ∉ dones p.
Proof. exact @srv_real_time. Qed.
Print Assumptions C66_real_time.

Theorem C66_fifo :
  forall (C : Crypto) (L : CryptoLaws) path ks0 f now tr v,
    built ks0 -> runs path (serving ks0 f now) tr v ->
    exists waiting, sends tr = map (fun x => fst (fst x)) (dones tr) ++ waiting /\ (length waiting <= 17)%nat.
Proof. exact @srv_fifo. Qed.
Print Assumptions C66_fifo.

Theorem C66_never_exits :
  forall (C : Crypto) (L : CryptoLaws) path ks0 f now tr v,
    built ks0 -> runs path (serving ks0 f now) tr v -> forall t, (t, EExit) ∉ tr.
Proof. exact @srv_never_exits. Qed.
Print Assumptions C66_never_exits.

Theorem C66_can_answer :
  forall (C : Crypto) (L : CryptoLaws) path ks0 f t0 tr v,
    built ks0 -> runs path (serving ks0 f t0) tr v -> vUp v = true -> (forall w, vDisp v <> DHang w) ->
    exists tr' v', runs path v tr' v' /\ (forall t e, (t, e) ∈ tr' -> inner e) /\ forall i, is_Some (vClients v !! i) -> answered v' i.
Proof. exact @srv_can_answer. Qed.
Print Assumptions C66_can_answer.

Theorem C66_no_hang :
  forall (C : Crypto) (L : CryptoLaws) path ks0 f t0 tr v e v',
    built ks0 -> runs path (serving ks0 f t0) tr v -> distinct_keys (vKs v) -> step path v e v' -> e <> EHang.
Proof. exact @srv_no_hang. Qed.
Print Assumptions C66_no_hang.

Theorem C66_answered_refuted :
  forall (C : Crypto) (L : CryptoLaws) path f t0 d seed da sa n1 n2 n3 n4 n5 n6 l1 l2 s0 sA,
    length d = 32%nat -> length seed = 32%nat -> length da = 32%nat -> length sa = 32%nat -> n2 <> 0 -> int64 n3 ->
    l1 <> bs "self" -> l1 <> [] -> l2 <> bs "self" -> l2 <> [] -> l2 <> l1 -> pub_of da sa <> pub_of d seed ->
    new_kstore n1 n2 (Some (keypair d seed)) = Ret (Some s0) -> new_kstore n3 n4 (Some (keypair da sa)) = Ret (Some sA) ->
    exists s1 tr v, ks_add n5 n6 s0 l1 (pub_of da sa) None = Ret (true, s1) /\ built s1 /\
      runs path (serving s1 f t0) tr v /\ vUp v = true /\ vDisp v = DHang Auditor /\ kpresent (vKs v) l2 /\
      forall tr' v', runs path v tr' v' -> vKs v' = vKs v /\ vFs v' = vFs v /\ forall t e, (t, e) ∈ tr' -> ~ dealing e.
Proof. exact @srv_hang. Qed.
Print Assumptions C66_answered_refuted.

Example C66_nonvacuous : exists s tr v t a,
  built (C:=toy) s /\ distinct_keys s /\ runs (C:=toy) (bs "db") (serving s ∅ 0) tr v /\ (t, EAnswer 7 a) ∈ tr.
Proof.
  destruct C45_nonvacuous as (s & _ & B & D).
  assert (runs (C:=toy) (bs "db") (serving s ∅ 0) [(0, EArrive 7 (GetPublic (bs "bob")))] (with_client (serving s ∅ 0) 7 (GetPublic (bs "bob")) (CSend (Cmd Public (bs "bob") [])))) as R.
  { apply (runs_one (bs "db") (serving s ∅ 0)). apply (st_arrive (bs "db") (serving s ∅ 0) 7 (GetPublic (bs "bob"))); [reflexivity|apply lookup_empty]. }
  destruct (srv_can_answer (L:=toy_laws) _ _ _ _ _ _ B R eq_refl ltac:(discriminate)) as (tr & v & R2 & _ & A).
  destruct (A 7%nat (ltac:(cbn [with_client vClients]; rewrite lookup_insert; eauto))) as (q & a & E).
  pose proof (runs_app _ _ _ _ _ _ R R2) as R3. pose proof (sinv_runs (L:=toy_laws) _ _ _ _ _ _ B R3) as I.
  pose proof (si_client _ _ _ I 7%nat) as Cl. unfold client_ok in Cl. rewrite E in Cl.
  destruct Cl as [_ [(e & -> & _ & X)|(c & r & _ & _ & X)]]; [unfold own in X; cbn in X; discriminate X|].
  assert (EAnswer 7 (answer q r) ∈ own 7 ([(0, EArrive 7 (GetPublic (bs "bob")))] ++ tr)) as Y by (rewrite X; unfold life; do 5 right; left).
  apply own_in in Y as (_ & t & Y). exists s. eexists _, v, t, _. split; [exact B|]. split; [exact D|]. split; [exact R3|exact Y].
Qed.
Example C66_serves :
  xk_do kd1 (Cmd Upload (bs "carol") xk_cert) = Some (Resp (Some (bs "public key added successfully")) None, 2%nat) /\
  xk_do kd1 (Cmd Upload (bs "bob") xk_cert) = Some (Resp None (Some (bs "failed to add public key")), 1%nat) /\
  xk_do kd1 (Cmd Upload (bs "self") xk_cert) = Some (Resp None (Some (bs "invalid label")), 1%nat) /\
  xk_do kd1 (Cmd Public (bs "carol") []) = Some (Resp None (Some (bs "export failed")), 1%nat) /\
  xk_do (xk_then (Cmd Upload (bs "carol") xk_cert)) (Cmd Public (bs "carol") []) = Some (Resp (Some xk_cert) None, 2%nat) /\
  xk_do kd1 (Cmd Audit [] []) = Some (Resp None None, 1%nat).
Proof. split_and!; apply (bool_decide_eq_true_1 _); vm_compute; reflexivity. Qed.

(** C67. What the server keeps, and when it writes it. *)
Theorem C67_keeps :
  forall (C : Crypto) (L : CryptoLaws) path ks0 f now tr v,
    built ks0 -> runs path (serving ks0 f now) tr v ->
    ksPub (vKs v) = ksPub ks0 /\ ksPriv (vKs v) = ksPriv ks0 /\ ksExport (vKs v) = ksExport ks0 /\
    (forall k r, krecord ks0 k r -> krecord (vKs v) k r) /\
    (forall k r, krecord (vKs v) k r -> krecord ks0 k r \/ exists w d c,
       (w, Cmd Upload k d, Resp (Some (bs "public key added successfully")) None) ∈ dones tr /\
       parse_verified_key d = Some c /\ subject r = vPublic c /\ signer r = vSigner c /\ signature r = vSig c /\ krSigTime r = vTime c).
Proof. exact @srv_keeps. Qed.
Print Assumptions C67_keeps.

Theorem C67_uploaded :
  forall (C : Crypto) (L : CryptoLaws) path ks0 f now tr v w k d,
    built ks0 -> runs path (serving ks0 f now) tr v ->
    (w, Cmd Upload k d, Resp (Some (bs "public key added successfully")) None) ∈ dones tr ->
    exists c, parse_verified_key d = Some c /\ k <> bs "self" /\
      forall x r s', served (vKs v) (Cmd Public k x) r s' -> r = Resp (Some (serialise c)) None /\
        (served (vKs v) (Cmd Fingerprint k x) (Resp (Some (fingerprint_of (vPublic c))) None) (vKs v)).
Proof. exact @srv_uploaded. Qed.
Print Assumptions C67_uploaded.

Theorem C67_dump_quiet :
  forall (C : Crypto) (L : CryptoLaws) path ks0 f t0 tr v p t q,
    built ks0 -> runs path (serving ks0 f t0) tr v -> tr = p ++ (t, EDump) :: q ->
    t0 + 600 <= t /\ forall t' e, (t', e) ∈ p -> dealing e -> t' + 600 <= t.
Proof. exact @srv_dump_quiet. Qed.
Print Assumptions C67_dump_quiet.

Theorem C67_busy_unwritten :
  forall (C : Crypto) (L : CryptoLaws) path ks0 f t0 tr v,
    built ks0 -> runs path (serving ks0 f t0) tr v ->
    (forall p t e q, tr = p ++ (t, e) :: q -> t < t0 + 600 \/ exists t' w, (t', EReply w) ∈ p /\ t < t' + 600) -> vFs v = f.
Proof. exact @srv_busy_unwritten. Qed.
Print Assumptions C67_busy_unwritten.

Theorem C67_other_files :
  forall (C : Crypto) (L : CryptoLaws) path ks0 f t0 tr v,
    built ks0 -> runs path (serving ks0 f t0) tr v -> forall p, p <> path -> vFs v !! p = f !! p.
Proof. exact @srv_other_files. Qed.
Print Assumptions C67_other_files.

Theorem C67_file :
  forall (C : Crypto) (L : CryptoLaws) path ks0 f t0 tr v,
    built ks0 -> runs path (serving ks0 f t0) tr v ->
    vFs v = f \/ exists p t q s n, tr = p ++ (t, EDump) :: q /\ (forall t', (t', EDump) ∉ q) /\ serial ks0 (dones p) s /\ vFs v !! path = Some (take n (ks_dump s)).
Proof. exact @srv_file. Qed.
Print Assumptions C67_file.

Theorem C67_can_write :
  forall (C : Crypto) path v t,
    vUp v = true -> vDisp v = DSelect t -> t <= vNow v ->
    exists tr v1 v2, runs path v tr v1 /\ step path v1 (EWritten true) v2 /\ vKs v2 = vKs v.
Proof. exact @srv_can_write. Qed.
Print Assumptions C67_can_write.

Theorem C67_written :
  forall (C : Crypto) (L : CryptoLaws) path ks0 f t0 tr v v' orNew n1 n2 g,
    built ks0 -> runs path (serving ks0 f t0) tr v -> step path v (EWritten true) v' ->
    vFs v' !! path = Some (ks_dump (vKs v')) /\ vKs v' = vKs v /\
    (go_kstore (vKs v) -> text_kstore (vKs v) -> load_kstore (vFs v') path orNew n1 n2 g = Ret (Some (closed_copy (vKs v)), g)).
Proof. exact @srv_written. Qed.
Print Assumptions C67_written.

Theorem C67_torn_refuted :
  forall (C : Crypto) path ks0 f t0 orNew n1 n2 g,
    exists tr v, runs path (serving ks0 f t0) tr v /\ vUp v = false /\
    load_kstore (vFs v) path orNew n1 n2 g = Ret (None, g).
Proof. exact @srv_torn. Qed.
Print Assumptions C67_torn_refuted.

Theorem C67_lost_refuted :
  forall (C : Crypto) (L : CryptoLaws) path ks0 f t0 l d,
    built ks0 -> l <> [] -> (exists v, parse_verified_key d = Some v /\ importable ks0 l v) ->
    exists tr v t, runs path (serving ks0 f t0) tr v /\ (t, EAnswer 0 (200, bs "public key added successfully")) ∈ tr /\ vUp v = false /\
      vFs v = f /\ kpresent (vKs v) l /\ ~ kpresent ks0 l.
Proof. exact @srv_lost. Qed.
Print Assumptions C67_lost_refuted.

Theorem C67_start :
  forall (C : Crypto) (L : CryptoLaws) f path pass n1 n2 n3 g w s f' g',
    serve_load f path pass n1 n2 n3 g w = Ret (s, f', g') ->
    f' = f /\ forall s1, s = Some s1 -> exists data, f !! path = Some data /\ ready s1 /\ ksLocked s1 = false /\ healthy s1.
Proof. exact @start_inv. Qed.
Print Assumptions C67_start.

Theorem C67_start_again :
  forall (C : Crypto) (L : CryptoLaws) s f path pass n1 n2 n3 g w k,
    built s -> go_kstore s -> text_kstore s -> f !! path = Some (ks_dump s) ->
    unlock_key (octets_of (ksBlob s)) pass = Ret (Some k) -> ksBlob s <> None -> owns s k -> ksExport s <> None ->
    exists s', serve_load f path (Some pass) n1 n2 n3 g w = Ret (Some s', f, g) /\ same_public s s' /\ ksPriv s' = Some k /\ built s'.
Proof. exact @start_again. Qed.
Print Assumptions C67_start_again.

Theorem C67_start_missing :
  forall (C : Crypto) f path pass n1 n2 n3 g w,
    f !! path = None ->
    (starved g 64 -> exists g', serve_load f path (Some pass) n1 n2 n3 g w = Ret (None, f, g')) /\
    (~ starved g 64 -> serve_load f path (Some pass) n1 n2 n3 g w = Panic).
Proof. exact @start_missing. Qed.
Print Assumptions C67_start_missing.

Example C67_nonvacuous : exists s tr v v', built (C:=toy) s /\ runs (C:=toy) (bs "db") (serving s ∅ 0) tr v /\ step (C:=toy) (bs "db") v (EWritten true) v'.
Proof.
  destruct C45_nonvacuous as (s & _ & B & _).
  pose proof (st_tick (C:=toy) (bs "db") (serving s ∅ 0) 600 eq_refl eq_refl) as T. apply runs_one in T.
  destruct (srv_can_write (C:=toy) (bs "db") (with_now (serving s ∅ 0) 600) 600 eq_refl eq_refl ltac:(reflexivity)) as (tr & v & v' & R & St & _).
  exists s. eexists _, v, v'. split; [exact B|]. split; [eapply runs_app; eassumption|exact St].
Qed.
(** Locked with "pw", written, and started again; and a wrong passphrase. *)
Example C67_starts :
  holds_of kd1 (fun s => built_by (ks_lock_with (C:=toy) s (bs "pw") (map Some (replicate 56 x0a))) (fun '(_, s', _, _) =>
    let f : fs := {[bs "f" := ks_dump s']} in
    built_by (serve_load (C:=toy) f (bs "f") (Some (bs "pw")) 1 2 3 [] WOk) (fun '(o, _, _) =>
      holds_of o (fun s2 => negb (ksLocked s2) && bool_decide (ksPriv s2 = ksPriv s) && bool_decide (length (kd_order s2) = 1%nat))) &&
    built_by (serve_load (C:=toy) f (bs "f") (Some (bs "no")) 1 2 3 [] WOk) (fun '(o, _, _) => negb (holds_of o (fun _ => true))))) = true.
Proof. vm_compute. reflexivity. Qed.


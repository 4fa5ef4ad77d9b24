(** Property C67, continued: the key server over several processes; and C68: key stores cut short. *)
From Verif Require Export FcryptTorn PropsKeySrv PropsFcrypt.
Local Open Scope Z_scope.

Theorem C67_leaves :
  forall (C : Crypto) (L : CryptoLaws) path ks0 f t0 tr v,
    built ks0 -> go_kstore ks0 -> text_kstore ks0 -> KeySrv.runs path (serving ks0 f t0) tr v -> text_uploads tr -> real_times tr ->
    vFs v = f \/ unloadable (vFs v) path \/
    exists p q s, tr = p ++ q /\ serial ks0 (dones p) s /\ vFs v !! path = Some (ks_dump s) /\
      forall orNew n1 n2 g, load_kstore (vFs v) path orNew n1 n2 g = Ret (Some (closed_copy s), g).
Proof. exact @srv_leaves_text. Qed.
Print Assumptions C67_leaves.

Theorem C67_lives :
  forall (C : Crypto) (L : CryptoLaws) path k s f ds f',
    lives path k f ds f' -> built s -> go_kstore s -> text_kstore s -> f !! path = Some (ks_dump s) ->
    ksBlob s <> None -> ksExport s <> None -> ksPriv s = Some k -> ksLocked s = false -> owns s k ->
    exists ps, Forall2 prefix ps ds /\
      (unloadable f' path \/ exists s', serial s (concat ps) s' /\ f' !! path = Some (ks_dump s') /\ built s' /\
         forall orNew n1 n2 g, load_kstore f' path orNew n1 n2 g = Ret (Some (closed_copy s'), g)).
Proof. exact @srv_lives_text. Qed.
Print Assumptions C67_lives.

Theorem C67_cut :
  forall (C : Crypto) s n f path,
    (n < length (ks_dump s))%nat -> f !! path = Some (take n (ks_dump s)) -> unloadable f path.
Proof. exact @torn_dump. Qed.
Print Assumptions C67_cut.

Theorem C67_cut_stays :
  forall (C : Crypto) path k f ds f',
    lives path k f ds f' -> unloadable f path -> is_Some (f !! path) -> ds = [] /\ unloadable f' path.
Proof. exact @unloadable_stays. Qed.
Print Assumptions C67_cut_stays.

Theorem C68_store_file :
  forall (C : Crypto) (L : CryptoLaws) f o l w w',
    ends (fc_main f o l w) w' -> (forall k a, chosen l = Some (k, a) -> out_path k (lArgs l) <> Some (lPath l)) ->
    wFs w' !! lPath l = wFs w !! lPath l \/ unloadable (wFs w') (lPath l) \/ exists s, wFs w' !! lPath l = Some (ks_dump s).
Proof. exact @fcr_store_file. Qed.
Print Assumptions C68_store_file.

Theorem C68_cut_refuted :
  forall (C : Crypto) f o l a label rest s w n fates,
    key_file (wFs w) (lPath l) s -> chosen l = Some (FRemove, a) -> lArgs l = label :: rest ->
    label <> bs "self" -> kpresent s label -> wFate w = WPartial n :: fates ->
    exists w' s', let d := ks_dump (at_time s' (nth 2 (wClk w) 0)) in fc_main f o l w = Fail w' /\ without s label s' /\
      wFs w' = <[lPath l := take n d]> (wFs w) /\ (2 <= length d)%nat /\
      ((n < length d)%nat -> unloadable (wFs w') (lPath l) /\ forall s2, ~ key_file (wFs w') (lPath l) s2).
Proof. exact @fcr_cut. Qed.
Print Assumptions C68_cut_refuted.

(** A store that is served, written after ten minutes, and served again. *)
Example C67_lives_nonvacuous : exists path k s f ds f', lives (C:=toy) path k f ds f' /\ length ds = 2%nat /\
  built (C:=toy) s /\ go_kstore s /\ text_kstore s /\ f !! path = Some (ks_dump s) /\
  ksBlob s <> None /\ ksExport s <> None /\ ksPriv s = Some k /\ ksLocked s = false /\ owns s k.
Proof.
  assert (exists s0, kd0 = Some s0 /\ new_kstore (C:=toy) 5 6 (Some (kd x05)) = Ret (Some s0)) as (s0 & E0 & N).
  { unfold kd0. destruct (new_kstore (C:=toy) 5 6 (Some (kd x05))) as [[s|]|] eqn:E; [eauto|exfalso..].
    - assert (holds_of kd0 (fun _ => true) = true) as X by (vm_compute; reflexivity). unfold kd0 in X. rewrite E in X. discriminate X.
    - assert (holds_of kd0 (fun _ => true) = true) as X by (vm_compute; reflexivity). unfold kd0 in X. rewrite E in X. discriminate X. }
  assert (built (C:=toy) s0) as B0 by (refine (bt_new 5 6 (kd x05) s0 _ _ N); [vm_compute; auto|lia]).
  apply (new_kstore_exact (C:=toy)) in N as (d & sg & e & v & Ek & Es).
  destruct (lives_twice (C:=toy) (L:=toy_laws) (bs "db") s0 (bs "pw") (map Some (replicate 56 x0a)) (kd x05) (replicate 32 x0a) (replicate 24 x0a) [])
    as (s1 & f & f' & ds & H); [exact B0|rewrite Es..| | | |].
  - split; [unfold int64; cbn; lia|]. split; [unfold int64; cbn; lia|]. intros l r (m & E & X). cbn in E. injection E as <-. rewrite lookup_empty in X. discriminate X.
  - intros m l x E X. cbn in E. injection E as <-. rewrite lookup_empty in X. discriminate X.
  - reflexivity.
  - reflexivity.
  - discriminate.
  - reflexivity.
  - reflexivity.
  - reflexivity.
  - exists (bs "db"), (kd x05), s1, f, ds, f'. decompose [and] H. repeat (split; [assumption|]). assumption.
Qed.

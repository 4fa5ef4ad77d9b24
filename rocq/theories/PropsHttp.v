(** Property C66, continued: the answers the key server gives over HTTP, and the pause between its audits. *)
From Verif Require Export KeySrvHttp PropsKeySrv.
From Verif Require Import SpecHttp.
Local Open Scope Z_scope.

Theorem C66_http :
  forall (C : Crypto) (L : CryptoLaws) path ks0 f now tr v i t a,
    built ks0 -> runs path (serving ks0 f now) tr v -> (t, EAnswer i a) ∈ tr ->
    exists q p rest c r s s', (exists t', (t', EArrive i q) ∈ tr) /\ dones tr = p ++ (Client i, c, r) :: rest /\
      serial ks0 p s /\ serial ks0 (p ++ [(Client i, c, r)]) s' /\ http s q a s'.
Proof. exact @srv_http. Qed.
Print Assumptions C66_http.

Theorem C66_bad_body :
  forall (C : Crypto) (L : CryptoLaws) path ks0 f now tr v i e c,
    built ks0 -> runs path (serving ks0 f now) tr v -> vClients v !! i = Some (BadBody e, c) ->
    c = CDone (400, e) /\ forall c' r, (Client i, c', r) ∉ dones tr.
Proof. exact @srv_bad_body. Qed.
Print Assumptions C66_bad_body.

Theorem C66_audit_pause :
  forall (C : Crypto) path v0 tr v p t q t',
    runs path v0 tr v -> tr = p ++ (t, EAudited) :: q -> (t', ESend Auditor) ∈ q -> t + 4 * 60 * 60 <= t'.
Proof. exact @srv_audit_pause. Qed.
Print Assumptions C66_audit_pause.

(** A client that asks for a key is answered, and the answer is one of those above. *)
Example C66_http_nonvacuous : exists s q a s', built (C:=toy) s /\ http (C:=toy) s q a s'.
Proof.
  destruct C45_nonvacuous as (s & _ & B & D). exists s, (PutKey [] []). eexists _, _. split; [exact B|]. apply h_bad_label. right. reflexivity.
Qed.
Example C66_http_runs : exists s tr v t a, built (C:=toy) s /\ runs (C:=toy) (bs "db") (serving s ∅ 0) tr v /\ (t, EAnswer 7 a) ∈ tr.
Proof. destruct C66_nonvacuous as (s & tr & v & t & a & B & _ & R & E). eauto 10. Qed.
Example C66_bad_body_nonvacuous : exists s tr v, built (C:=toy) s /\ runs (C:=toy) (bs "db") (serving s ∅ 0) tr v /\
  vClients v !! 7%nat = Some (BadBody (bs "unexpected EOF"), CDone (400, bs "unexpected EOF")).
Proof.
  destruct C45_nonvacuous as (s & _ & B & D). exists s. eexists _, _. split; [exact B|]. split.
  - apply (runs_one (bs "db") (serving s ∅ 0)). apply (st_arrive (bs "db") (serving s ∅ 0) 7 (BadBody (bs "unexpected EOF"))); [reflexivity|apply lookup_empty].
  - cbn [with_client vClients]. apply lookup_insert.
Qed.
(** An audit, four hours, and the next. *)
Example C66_audit_pause_nonvacuous : exists v0 v,
  runs (C:=toy) (bs "db") v0 [(0, EAudited); (0, ETick); (14400, EWake); (14400, ESend Auditor)] v.
Proof.
  destruct C45_nonvacuous as (s & _ & _). set (v0 := with_aud (serving s ∅ 0) (AWait (Some (Resp None None)))).
  pose proof (runs_one _ _ _ _ (st_audited (C:=toy) (bs "db") v0 (Resp None None) eq_refl eq_refl eq_refl)) as R1.
  pose proof (runs_one _ _ _ _ (st_tick (C:=toy) (bs "db") (with_aud v0 (ASleep (vNow v0 + four_hours))) 14400 eq_refl eq_refl)) as R2.
  pose proof (runs_one _ _ _ _ (st_wake (C:=toy) (bs "db") (with_now (with_aud v0 (ASleep (vNow v0 + four_hours))) 14400) 14400 eq_refl eq_refl (Z.le_refl _))) as R3.
  pose proof (runs_one _ _ _ _ (st_send_audit (C:=toy) (bs "db") (with_aud (with_now (with_aud v0 (ASleep (vNow v0 + four_hours))) 14400) ASend) eq_refl eq_refl ltac:(cbn; unfold room; lia))) as R4.
  exists v0. eexists. exact (runs_app _ _ _ _ _ _ R1 (runs_app _ _ _ _ _ _ R2 (runs_app _ _ _ _ _ _ R3 R4))).
Qed.

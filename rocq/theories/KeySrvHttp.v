(** The key server's answers over HTTP, and its audits. *)
From Verif Require Export KeySrvStart SpecHttp.
Local Open Scope Z_scope.

Section WithCrypto.
Context `{C : Crypto} {L : CryptoLaws}.
Lemma served_http s q c r s' : command_of q = Some c -> served s c r s' -> http s q (answer q r) s'.
Proof.
  destruct q as [|l|l|l b|e]; intros [= <-] S; unfold self in S.
  - inversion S; subst; try congruence; unfold answer; cbn. destruct (ksExport _) eqn:E; [apply h_server|apply h_server_none]; assumption.
  - inversion S; subst; try congruence; unfold answer; cbn.
    + destruct (ksExport _) eqn:E; [apply h_own|apply h_own_none]; assumption.
    + now apply h_public.
    + now apply h_no_public.
  - destruct (decide (l = [])) as [->|N].
    + inversion S; subst; try (exfalso; congruence). apply h_own_print. auto.
    + inversion S; subst; try congruence; unfold answer; cbn.
      * apply h_own_print. auto.
      * now apply h_print.
      * now apply h_no_print.
  - inversion S; subst; unfold answer; cbn.
    + now apply h_bad_label.
    + now apply h_refused.
    + eapply h_added; eassumption.
Qed.
Lemma srv_http path ks0 f now tr v i t a : built ks0 -> runs path (serving ks0 f now) tr v -> (t, EAnswer i a) ∈ tr ->
  exists q p rest c r s s', (exists t', (t', EArrive i q) ∈ tr) /\ dones tr = p ++ (Client i, c, r) :: rest /\
    serial ks0 p s /\ serial ks0 (p ++ [(Client i, c, r)]) s' /\ http s q a s'.
Proof.
  intros B R E. destruct (srv_effect path ks0 f now tr v i t a B R E) as (q & c & r & p & rest & s & s' & O & Ec & -> & D & _ & S & V).
  exists q, p, rest, c, r, s, s'. split_and!.
  - apply (own_in i tr (EArrive i q)). rewrite O. left.
  - exact D.
  - exact S.
  - econstructor; eassumption.
  - eapply served_http; eassumption.
Qed.
(** A body that cannot be read. *)
Lemma srv_bad_body path ks0 f now tr v i e c : built ks0 -> runs path (serving ks0 f now) tr v -> vClients v !! i = Some (BadBody e, c) ->
  c = CDone (400, e) /\ forall c' r, (Client i, c', r) ∉ dones tr.
Proof.
  intros B R E. pose proof (sinv_runs path ks0 f now tr v B R) as I. pose proof (si_client _ _ _ I i) as Cl. unfold client_ok in Cl. rewrite E in Cl.
  destruct c as [c|[r|]|a]; [destruct Cl as (_ & X & _); discriminate X|destruct Cl as (_ & ? & X & _); discriminate X|destruct Cl as (? & X & _); discriminate X|].
  destruct Cl as [X Y]. destruct Y as [(e' & [= <-] & -> & O)|(c & r & X2 & _)]; [|discriminate X2]. split; [reflexivity|].
  intros c' r H. apply dones_in in H as [t H]. cbn in H. assert (EDone (Client i) c' r ∈ own i tr) as Z.
    { apply own_in. split; [cbn; now apply bool_decide_eq_true|eauto]. }
    rewrite O in Z. apply elem_of_list_singleton in Z. discriminate.
Qed.

(** *** The audits *)
Lemma runs_split path v p q v2 : runs path v (p ++ q) v2 -> exists v1, runs path v p v1 /\ runs path v1 q v2.
Proof.
  remember (p ++ q) as tr eqn:E. intros R. revert p q E. induction R as [v|v tr v1 e v2 R IH St]; intros p q E.
  - symmetry in E. apply app_eq_nil in E as [-> ->]. exists v. split; constructor.
  - destruct q as [|x q' _] using rev_ind.
    + rewrite app_nil_r in E. subst p. exists v2. split; [econstructor; eassumption|constructor].
    + rewrite app_assoc in E. apply app_inj_tail in E as [E <-]. destruct (IH _ _ E) as (w & A & B). exists w. split; [exact A|]. econstructor; eassumption.
Qed.
Lemma runs_now path v tr v' : runs path v tr v' -> vNow v <= vNow v'.
Proof. induction 1 as [|v tr v1 e v2 R IH St]; [lia|]. pose proof (step_now _ _ _ _ St). lia. Qed.
Lemma sleeping path v tr v' u : runs path v tr v' -> vAud v = ASleep u ->
  (vAud v' = ASleep u /\ forall t, (t, ESend Auditor) ∉ tr) \/ (u <= vNow v' /\ forall t, (t, ESend Auditor) ∈ tr -> u <= t).
Proof.
  intros R E. induction R as [v|v tr v1 e v2 R IH St].
  - left. split; [exact E|]. intros t H. inversion H.
  - specialize (IH E). pose proof (step_now _ _ _ _ St) as Mn. destruct IH as [[A N]|[U N]].
    + assert ((vAud v2 = ASleep u /\ e <> ESend Auditor) \/ (u <= vNow v1 /\ e <> ESend Auditor)) as [[A2 X]|[A2 X]].
      { destruct St; cbn; try (left; split; [exact A|discriminate]); try congruence.
        - left. split; [|discriminate]. unfold deliver. destruct w as [i|]; [destruct (vClients _ !! i) as [[? [|[]|]]|]; exact A|rewrite A; exact A].
        - right. split; [|discriminate]. congruence. }
      * left. split; [exact A2|]. intros t H. apply elem_of_app in H as [H|H]; [apply (N t H)|]. apply elem_of_list_singleton in H. injection H as _ H. congruence.
      * right. split; [lia|]. intros t H. apply elem_of_app in H as [H|H]; [destruct (N t H)|]. apply elem_of_list_singleton in H. injection H as _ H. congruence.
    + right. split; [lia|]. intros t H. apply elem_of_app in H as [H|H]; [auto|]. apply elem_of_list_singleton in H. injection H as -> _. exact U.
Qed.
Lemma runs_single path v t e v2 : runs path v [(t, e)] v2 -> t = vNow v /\ step path v e v2.
Proof.
  remember [(t, e)] as tr eqn:E. intros R. destruct R as [v|v tr v1 e1 v2 R St]; [discriminate|]. destruct tr as [|x [|]]; try discriminate. cbn in E. injection E as <- ->.
  remember [] as tr eqn:E. destruct R as [v|v tr v1 e1 v2' R St']; [auto|]. destruct tr; discriminate.
Qed.
Lemma srv_audit_pause path v0 tr v p t q t' : runs path v0 tr v -> tr = p ++ (t, EAudited) :: q -> (t', ESend Auditor) ∈ q -> t + 4 * 60 * 60 <= t'.
Proof.
  intros R -> H. apply (runs_split path v0 p) in R as (v1 & _ & R). change ((t, EAudited) :: q) with ([(t, EAudited)] ++ q) in R. apply runs_split in R as (v2 & R1 & R2).
  apply runs_single in R1 as [-> St]. inversion St; subst.
  destruct (sleeping path _ q v (vNow v1 + four_hours) R2 eq_refl) as [[_ N]|[_ N]]; [destruct (N _ H)|]. specialize (N _ H). unfold four_hours in N. lia.
Qed.
End WithCrypto.

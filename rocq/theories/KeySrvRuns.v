(** Facts about whole runs of the key server. *)
From Verif Require Export KeySrvFacts.
Local Open Scope Z_scope.

Lemma dones_snoc tr t e : dones (tr ++ [(t, e)]) = dones tr ++ match e with EDone w c r => [(w, c, r)] | _ => [] end.
Proof. unfold dones. rewrite omap_app. destruct e; reflexivity. Qed.
Lemma sends_snoc tr t e : sends (tr ++ [(t, e)]) = sends tr ++ match e with ESend w => [w] | _ => [] end.
Proof. unfold sends. rewrite omap_app. destruct e; reflexivity. Qed.
Lemma recvs_snoc tr t e : recvs (tr ++ [(t, e)]) = recvs tr ++ match e with ERecv w => [w] | _ => [] end.
Proof. unfold recvs. rewrite omap_app. destruct e; reflexivity. Qed.
Lemma own_snoc i tr t e : own i (tr ++ [(t, e)]) = own i tr ++ (if concerns i e then [e] else []).
Proof. unfold own. rewrite omap_app. cbn. destruct (concerns i e); reflexivity. Qed.

Global Instance who_eq_dec : EqDecision who.
Proof. solve_decision. Defined.
(** Who the dispatcher is busy with; and before the response is made. *)
Definition busy (d : dstate) : list who := match d with DHave w _ | DReply w _ | DHang w => [w] | _ => [] end.
Definition undone (d : dstate) : list who := match d with DHave w _ | DHang w => [w] | _ => [] end.
Definition pending (v : server) : list who := busy (vDisp v) ++ map fst (vQueue v).

Section WithCrypto.
Context {C : Crypto} {L : CryptoLaws}.

Definition client_ok (i : nat) (tr : trace) (v : server) : Prop :=
  match vClients v !! i with
  | None => own i tr = [] /\ Client i ∉ pending v
  | Some (q, CSend c) => own i tr = [EArrive i q] /\ command_of q = Some c /\ Client i ∉ pending v
  | Some (q, CWait None) => exists c, command_of q = Some c /\
      (own i tr = [EArrive i q; ESend (Client i)] /\ (Client i, c) ∈ vQueue v \/
       own i tr = [EArrive i q; ESend (Client i); ERecv (Client i)] /\ vDisp v = DHave (Client i) c \/
       exists r, own i tr = [EArrive i q; ESend (Client i); ERecv (Client i); EDone (Client i) c r] /\ vDisp v = DReply (Client i) r)
  | Some (q, CWait (Some r)) => Client i ∉ pending v /\ exists c, command_of q = Some c /\
      own i tr = [EArrive i q; ESend (Client i); ERecv (Client i); EDone (Client i) c r; EReply (Client i)]
  | Some (q, CDone a) => Client i ∉ pending v /\
      ((exists e, q = BadBody e /\ a = (400, e) /\ own i tr = [EArrive i q]) \/
       exists c r, command_of q = Some c /\ a = answer q r /\ own i tr = life i q c r)
  end.
Record sinv (ks0 : kstore) (tr : trace) (v : server) : Prop := {
  si_built : built (vKs v);
  si_serial : serial ks0 (dones tr) (vKs v);
  si_room : (length (vQueue v) <= room)%nat;
  si_sends : sends tr = recvs tr ++ map fst (vQueue v);
  si_recvs : recvs tr = map (fun x => fst (fst x)) (dones tr) ++ undone (vDisp v);
  si_nodup : NoDup (pending v);
  si_client : forall i, client_ok i tr v;
  si_aud : Auditor ∈ pending v <-> vAud v = AWait None;
  si_audq : forall c, (Auditor, c) ∈ vQueue v -> c = Cmd Audit [] [];
  si_audh : forall c, vDisp v = DHave Auditor c -> c = Cmd Audit [] [];
  si_audr : forall r, vDisp v = DReply Auditor r -> aErr r = None;
  si_auda : forall r, vAud v = AWait (Some r) -> aErr r = None;
  si_hang : forall w, vDisp v = DHang w -> w = Auditor;
  si_write : forall d n, vDisp v = DWrite d n -> (n <= length d)%nat
}.
Lemma sinv_start ks0 f now : built ks0 -> sinv ks0 [] (serving ks0 f now).
Proof.
  intros B. constructor; cbn [serving vKs vQueue vDisp vClients vAud pending busy undone app map fst]; try discriminate; auto.
  - constructor.
  - cbn. lia.
  - constructor.
  - intros i. unfold client_ok. cbn [serving vClients]. rewrite lookup_empty. split; [reflexivity|]. apply not_elem_of_nil.
  - split; [intros H; apply elem_of_nil in H as []|discriminate].
  - intros c H. apply elem_of_nil in H as [].
Qed.
(** Steps that touch no client, no pending command and no store. *)
Lemma client_same i tr v t e v' : concerns i e = false -> vClients v' !! i = vClients v !! i -> vQueue v' = vQueue v ->
  (vDisp v' = vDisp v \/ busy (vDisp v) = [] /\ busy (vDisp v') = []) -> client_ok i tr v -> client_ok i (tr ++ [(t, e)]) v'.
Proof.
  intros A E Q D H. unfold client_ok in *. rewrite E. rewrite own_snoc, A, app_nil_r.
  assert (pending v' = pending v) as P by (unfold pending; rewrite Q; destruct D as [-> |[-> ->]]; reflexivity).
  rewrite P, Q. destruct (vClients v !! i) as [[q [c|[r|]|a]]|]; try exact H.
  destruct H as (c & Hc & [X|[[X Y]|(r & X & Y)]]); exists c; (split; [exact Hc|]).
  - left. exact X.
  - right. left. split; [exact X|]. destruct D as [-> |[B _]]; [exact Y|]. rewrite Y in B. discriminate B.
  - right. right. exists r. split; [exact X|]. destruct D as [-> |[B _]]; [exact Y|]. rewrite Y in B. discriminate B.
Qed.
Lemma sinv_quiet ks0 tr v t e v' : (forall d n, vDisp v' = DWrite d n -> vDisp v' = vDisp v \/ (n <= length d)%nat) -> (forall i, concerns i e = false) -> match e with EDone _ _ _ | ESend _ | ERecv _ => False | _ => True end ->
  vKs v' = vKs v -> vClients v' = vClients v -> vQueue v' = vQueue v ->
  (vDisp v' = vDisp v \/ busy (vDisp v) = [] /\ busy (vDisp v') = []) ->
  (vAud v' = vAud v \/ vAud v <> AWait None /\ (vAud v' = ASend \/ exists t, vAud v' = ASleep t)) ->
  sinv ks0 tr v -> sinv ks0 (tr ++ [(t, e)]) v'.
Proof.
  intros EW A NE EK EC EQ ED EA [I1 I2 I3 I4 I5 I6 I7 I8 I9 I10 I11 I12 I13 I14].
  assert (pending v' = pending v) as P by (unfold pending; rewrite EQ; destruct ED as [-> |[-> ->]]; reflexivity).
  assert (undone (vDisp v') = undone (vDisp v)) as U.
  { destruct ED as [-> |[B B']]; [reflexivity|]. destruct (vDisp v), (vDisp v'); cbn in *; try discriminate; reflexivity. }
  assert (forall d, busy d <> [] -> vDisp v' = d -> vDisp v = d) as DD.
  { intros d Nd E. destruct ED as [<- |[_ B]]; [exact E|]. rewrite E in B. contradiction. }
  constructor.
  - rewrite EK. exact I1.
  - rewrite EK, dones_snoc. destruct e; try contradiction; rewrite app_nil_r; exact I2.
  - rewrite EQ. exact I3.
  - rewrite EQ, sends_snoc, recvs_snoc. destruct e; try contradiction; rewrite !app_nil_r; exact I4.
  - rewrite U, recvs_snoc, dones_snoc. destruct e; try contradiction; rewrite !app_nil_r; exact I5.
  - rewrite P. exact I6.
  - intros i. apply (client_same i tr v); auto. rewrite EC. reflexivity.
  - rewrite P, I8. destruct EA as [-> |[N [-> |[x ->]]]]; [reflexivity|split; [contradiction|discriminate]..].
  - rewrite EQ. exact I9.
  - intros c E. apply I10. apply DD; [discriminate|exact E].
  - intros r E. apply I11. apply DD; [discriminate|exact E].
  - intros r E. destruct EA as [EA|[_ [EA|[x EA]]]]; [apply I12; congruence|congruence..].
  - intros w E. apply I13. apply DD; [discriminate|exact E].
  - intros d n E. destruct (EW d n E) as [X|X]; [apply I14; congruence|exact X].
Qed.
Lemma concerns_other i j e : concerns j e = true -> i <> j -> concerns i e = false.
Proof.
  intros H N. destruct e as [k q|[k|]|[k|]|[k|] c r|[k|]|k a| | | | | | | | |]; cbn in *; try reflexivity;
    apply bool_decide_eq_true in H; subst; apply bool_decide_eq_false_2; congruence.
Qed.
Lemma in_queue w c (l : list (who * command)) : (w, c) ∈ l -> w ∈ map fst l.
Proof. intros H. apply elem_of_list_fmap. exists (w, c). auto. Qed.
Lemma not_pending w v : w ∉ pending v -> w ∉ busy (vDisp v) /\ w ∉ map fst (vQueue v).
Proof. intros N. split; intros H; apply N; unfold pending; apply elem_of_app; auto. Qed.
(** A client with a pending command waits. *)
Lemma pending_waits ks0 tr v i : sinv ks0 tr v -> Client i ∈ pending v -> exists q, vClients v !! i = Some (q, CWait None).
Proof.
  intros I P. pose proof (si_client _ _ _ I i) as H. unfold client_ok in H.
  destruct (vClients v !! i) as [[q [c|[r|]|a]]|]; [|..|]; try (exfalso; tauto); eauto.
Qed.

Lemma sinv_step path ks0 tr v e v' : sinv ks0 tr v -> step path v e v' -> sinv ks0 (tr ++ [(vNow v, e)]) v'.
Proof.
  intros I St. pose proof I as [I1 I2 I3 I4 I5 I6 I7 I8 I9 I10 I11 I12 I13 I14].
  destruct St as [v i q U N|v i q c U N Hr|v U N Hr|v t w c l U D Q|v w c ch r s U D F Pr|v w c ch U D F Pr|v w c ch U D F Pr
    |v w r U D|v i q r U N|v r U A Er|v r e U A Er|v t U A T|v t U T|v t U D T|v t U D T|v d n U D Hn|v d U D|v d n U D|v U].
  - (* arrive *)
    assert (pending (with_client v i q match q, command_of q with BadBody e, _ => CDone (400, e) | _, Some c => CSend c | _, None => CDone (400, []) end) = pending v) as P by reflexivity.
    constructor; rewrite ?dones_snoc, ?sends_snoc, ?recvs_snoc, ?app_nil_r; try assumption.
    intros j. destruct (decide (j = i)) as [-> |Nj].
    + pose proof (I7 i) as H. unfold client_ok in H |- *. rewrite N in H. destruct H as [H1 H2].
      cbn [with_client vClients]. rewrite lookup_insert, own_snoc, H1. cbn [concerns]. rewrite bool_decide_eq_true_2 by reflexivity. cbn [app].
      destruct q as [|l|l|l b|m]; cbn [command_of]; try (split; [reflexivity|]; split; [reflexivity|exact H2]).
      split; [exact H2|]. left. eauto.
    + apply (client_same j tr v); auto; [cbn; apply bool_decide_eq_false_2; congruence|].
      cbn [with_client vClients]. rewrite lookup_insert_ne by congruence. reflexivity.
  - (* a client sends *)
    pose proof (I7 i) as Hi. unfold client_ok in Hi. rewrite N in Hi. destruct Hi as (H1 & H2 & H3).
    constructor; rewrite ?dones_snoc, ?sends_snoc, ?recvs_snoc, ?app_nil_r; cbn [with_queue with_client vKs vQueue vDisp vClients vAud]; try assumption.
    + rewrite app_length. cbn [length]. lia.
    + rewrite I4, map_app, app_assoc. reflexivity.
    + unfold pending. cbn [with_queue with_client vQueue vDisp]. rewrite map_app, app_assoc. cbn [map fst].
      apply NoDup_app. split; [exact I6|]. split; [|apply NoDup_singleton].
      intros x Hx Hy. apply elem_of_list_singleton in Hy as ->. contradiction.
    + intros j. destruct (decide (j = i)) as [-> |Nj].
      * unfold client_ok. cbn [with_queue with_client vClients vQueue]. rewrite lookup_insert. exists c. split; [exact H2|]. left.
        rewrite own_snoc, H1. cbn [concerns]. rewrite bool_decide_eq_true_2 by reflexivity. split; [reflexivity|].
        apply elem_of_app. right. apply elem_of_list_singleton. reflexivity.
      * pose proof (I7 j) as H. unfold client_ok in H |- *. cbn [with_queue with_client vClients vQueue vDisp]. rewrite lookup_insert_ne by congruence.
        rewrite own_snoc. cbn [concerns]. rewrite bool_decide_eq_false_2 by congruence. rewrite app_nil_r.
        assert (Client j ∉ pending v -> Client j ∉ pending (with_queue (with_client v i q (CWait None)) (vQueue v ++ [(Client i, c)]))) as PP.
        { unfold pending. cbn [with_queue with_client vQueue vDisp]. rewrite map_app. cbn [map fst]. intros X Y. apply X.
          rewrite app_assoc in Y. apply elem_of_app in Y as [Y|Y]; [exact Y|]. apply elem_of_list_singleton in Y. congruence. }
        destruct (vClients v !! j) as [[q' [c'|[r'|]|a']]|].
        -- destruct H as (X & Y & Z). auto.
        -- destruct H as (X & Y). auto.
        -- destruct H as (c' & X & [[Y Z]|Y]); exists c'; (split; [exact X|]); [left; split; [exact Y|]; apply elem_of_app; left; exact Z|right; exact Y].
        -- destruct H as (X & Y). auto.
        -- destruct H as (X & Y). auto.
    + unfold pending in *. cbn [with_queue with_client vQueue vDisp]. rewrite map_app. cbn [map fst]. rewrite <- I8.
      rewrite app_assoc, elem_of_app. split; [intros [X|X]; [exact X|apply elem_of_list_singleton in X; discriminate X]|auto].
    + intros c' X. apply elem_of_app in X as [X|X]; [apply I9; exact X|]. apply elem_of_list_singleton in X. discriminate X.
  - (* the auditor sends *)
    assert (Auditor ∉ pending v) as NP by (rewrite I8, N; discriminate).
    constructor; rewrite ?dones_snoc, ?sends_snoc, ?recvs_snoc, ?app_nil_r; cbn [with_queue with_aud vKs vQueue vDisp vClients vAud]; try assumption.
    + rewrite app_length. cbn [length]. lia.
    + rewrite I4, map_app, app_assoc. reflexivity.
    + unfold pending. cbn [with_queue with_aud vQueue vDisp]. rewrite map_app, app_assoc. cbn [map fst].
      apply NoDup_app. split; [exact I6|]. split; [|apply NoDup_singleton].
      intros x Hx Hy. apply elem_of_list_singleton in Hy as ->. contradiction.
    + intros j. pose proof (I7 j) as H. unfold client_ok in H |- *. cbn [with_queue with_aud vClients vQueue vDisp].
      rewrite own_snoc. cbn [concerns]. rewrite app_nil_r.
      assert (Client j ∉ pending v -> Client j ∉ pending (with_queue (with_aud v (AWait None)) (vQueue v ++ [(Auditor, Cmd Audit [] [])]))) as PP.
      { unfold pending. cbn [with_queue with_aud vQueue vDisp]. rewrite map_app. cbn [map fst]. intros X Y. apply X.
        rewrite app_assoc in Y. apply elem_of_app in Y as [Y|Y]; [exact Y|]. apply elem_of_list_singleton in Y. discriminate Y. }
      destruct (vClients v !! j) as [[q' [c'|[r'|]|a']]|].
      * destruct H as (X & Y & Z). auto.
      * destruct H as (X & Y). auto.
      * destruct H as (c' & X & [[Y Z]|Y]); exists c'; (split; [exact X|]); [left; split; [exact Y|]; apply elem_of_app; left; exact Z|right; exact Y].
      * destruct H as (X & Y). auto.
      * destruct H as (X & Y). auto.
    + unfold pending. cbn [with_queue with_aud vQueue vDisp]. rewrite map_app, app_assoc. cbn [map fst]. split; [reflexivity|].
      intros _. apply elem_of_app. right. apply elem_of_list_singleton. reflexivity.
    + intros c' X. apply elem_of_app in X as [X|X]; [apply I9; exact X|]. apply elem_of_list_singleton in X. congruence.
    + discriminate.
  - (* the dispatcher takes a command *)
    assert (pending (with_disp (with_queue v l) (DHave w c)) = pending v) as P by (unfold pending; cbn; rewrite D, Q; reflexivity).
    constructor; rewrite ?P, ?dones_snoc, ?sends_snoc, ?recvs_snoc, ?app_nil_r; cbn [with_queue with_disp vKs vQueue vDisp vClients vAud undone]; try assumption; try discriminate.
    + rewrite Q in I3. cbn [length] in I3. lia.
    + rewrite I4, Q, <- app_assoc. reflexivity.
    + rewrite I5, D. cbn [undone]. rewrite app_nil_r. reflexivity.
    + intros j. pose proof (I7 j) as H. unfold client_ok in H |- *. rewrite P. cbn [with_queue with_disp vClients vQueue vDisp]. rewrite own_snoc.
      destruct (decide (w = Client j)) as [-> |Nw].
      * destruct (pending_waits ks0 tr v j I) as [q' E]; [unfold pending; rewrite D, Q; left|]. rewrite E in H |- *.
        destruct H as (c' & X & [[Y Z]|[[Y Z]|(r & Y & Z)]]); [|congruence..].
        exists c'. split; [exact X|]. right. left. rewrite Y. cbn [concerns]. rewrite bool_decide_eq_true_2 by reflexivity. split; [reflexivity|].
        rewrite Q in Z. apply elem_of_cons in Z as [[= <-]|Z]; [reflexivity|]. exfalso.
        unfold pending in I6. rewrite D, Q in I6. cbn in I6. apply NoDup_cons in I6 as [X6 _]. apply X6. eapply in_queue; eauto.
      * assert (concerns j (ERecv w) = false) as Ab by (destruct w as [k|]; [cbn; apply bool_decide_eq_false_2; congruence|reflexivity]).
        rewrite Ab, app_nil_r. destruct (vClients v !! j) as [[q' [c'|[r'|]|a']]|]; try exact H.
        destruct H as (c' & X & [[Y Z]|[[Y Z]|(r & Y & Z)]]); [|congruence..].
        exists c'. split; [exact X|]. left. split; [exact Y|]. rewrite Q in Z. apply elem_of_cons in Z as [[= Z _]|Z]; [congruence|exact Z].
    + intros c' X. apply I9. rewrite Q. right. exact X.
    + intros c' [= -> ->]. apply I9. rewrite Q. left.
  - (* a command is done *)
    assert (pending (with_disp (with_ks v s) (DReply w r)) = pending v) as P by (unfold pending; cbn; rewrite D; reflexivity).
    constructor; rewrite ?P, ?dones_snoc, ?sends_snoc, ?recvs_snoc, ?app_nil_r; cbn [with_ks with_disp vKs vQueue vDisp vClients vAud undone]; try assumption; try discriminate.
    + eapply process_built; eauto.
    + eapply se_snoc; [exact I2|]. eapply process_served; eauto.
    + rewrite I5, D, ?map_app, ?app_nil_r. reflexivity.
    + intros j. pose proof (I7 j) as H. unfold client_ok in H |- *. rewrite P. cbn [with_ks with_disp vClients vQueue vDisp]. rewrite own_snoc.
      destruct (decide (w = Client j)) as [-> |Nw].
      * destruct (pending_waits ks0 tr v j I) as [q' E]; [unfold pending; rewrite D; left|]. rewrite E in H |- *.
        destruct H as (c' & X & [[Y Z]|[[Y Z]|(r' & Y & Z)]]).
        -- exfalso. unfold pending in I6. rewrite D in I6. cbn in I6. apply NoDup_cons in I6 as [X6 _]. apply X6. eapply in_queue; eauto.
        -- rewrite D in Z. injection Z as <-. exists c. split; [exact X|]. right. right. exists r. rewrite Y. cbn [concerns].
           rewrite bool_decide_eq_true_2 by reflexivity. auto.
        -- congruence.
      * assert (concerns j (EDone w c r) = false) as Ab by (destruct w as [k|]; [cbn; apply bool_decide_eq_false_2; congruence|reflexivity]).
        rewrite Ab, app_nil_r. destruct (vClients v !! j) as [[q' [c'|[r'|]|a']]|]; try exact H.
        destruct H as (c' & X & [[Y Z]|[[Y Z]|(r' & Y & Z)]]); [|congruence..]. exists c'. auto.
    + intros r' [= -> ->]. pose proof (I10 _ D) as ->. pose proof (process_served _ _ _ _ _ _ I1 F Pr) as Sv. inversion Sv; reflexivity.
  - (* panic *) exfalso. exact (process_no_panic _ _ _ _ I1 F Pr).
  - (* an audit does not end *)
    assert (w = Auditor) as ->.
    { destruct w as [i|]; [exfalso|reflexivity]. pose proof (I7 i) as H. unfold client_ok in H.
      destruct (pending_waits ks0 tr v i I) as [q E]; [unfold pending; rewrite D; left|]. rewrite E in H.
      destruct H as (c' & X & [[Y Z]|[[Y Z]|(r' & Y & Z)]]); [..|congruence].
      - unfold pending in I6. rewrite D in I6. cbn in I6. apply NoDup_cons in I6 as [X6 _]. apply X6. eapply in_queue; eauto.
      - rewrite D in Z. injection Z as <-. revert Pr. intros Pr. specialize (Pr 0%nat). revert Pr. apply process_ends.
        destruct q; cbn in X; try discriminate X; injection X as <-; discriminate. }
    assert (pending (with_disp v (DHang Auditor)) = pending v) as P by (unfold pending; cbn; rewrite D; reflexivity).
    constructor; rewrite ?P, ?dones_snoc, ?sends_snoc, ?recvs_snoc, ?app_nil_r; cbn [with_disp vKs vQueue vDisp vClients vAud undone]; try assumption; try discriminate.
    + rewrite I5, D. reflexivity.
    + intros j. pose proof (I7 j) as H. unfold client_ok in H |- *. rewrite P. cbn [with_disp vClients vQueue vDisp]. rewrite own_snoc. cbn [concerns]. rewrite app_nil_r.
      destruct (vClients v !! j) as [[q' [c'|[r'|]|a']]|]; try exact H.
      destruct H as (c' & X & [[Y Z]|[[Y Z]|(r' & Y & Z)]]); [|congruence..]. exists c'. auto.
    + intros w [= <-]. reflexivity.
  - (* a response is sent *)
    assert (NoDup (w :: map fst (vQueue v))) as ND by (unfold pending in I6; rewrite D in I6; exact I6).
    apply NoDup_cons in ND as [NW NDq].
    destruct w as [i|].
    + destruct (pending_waits ks0 tr v i I) as [q E]; [unfold pending; rewrite D; left|].
      cbn [deliver]. rewrite E.
      constructor; rewrite ?dones_snoc, ?sends_snoc, ?recvs_snoc, ?app_nil_r; unfold pending; cbn [with_client with_disp vKs vQueue vDisp vClients vAud undone busy app]; try assumption; try discriminate.
      * rewrite I5, D. cbn [undone]. rewrite ?app_nil_r. reflexivity.
      * intros j. pose proof (I7 j) as H. unfold client_ok in H |- *. unfold pending in H |- *. rewrite D in H.
        cbn [with_client with_disp vClients vQueue vDisp busy app] in H |- *. rewrite own_snoc.
        destruct (decide (j = i)) as [-> |Nj].
        -- rewrite lookup_insert. rewrite E in H. cbn [concerns]. rewrite bool_decide_eq_true_2 by reflexivity. split; [exact NW|].
           destruct H as (c' & X & [[Y Z]|[[Y Z]|(r' & Y & Z)]]); [exfalso; apply NW; eapply in_queue; eauto|congruence|].
           injection Z as <-. exists c'. rewrite Y. auto.
        -- rewrite lookup_insert_ne by congruence. cbn [concerns]. rewrite bool_decide_eq_false_2 by congruence. rewrite app_nil_r.
           assert (Client j ∉ Client i :: map fst (vQueue v) -> Client j ∉ map fst (vQueue v)) as PP by (intros X Y; apply X; right; exact Y).
           destruct (vClients v !! j) as [[q' [c'|[r'|]|a']]|].
           ++ destruct H as (X & Y & Z). auto.
           ++ destruct H as (X & Y). auto.
           ++ destruct H as (c' & X & [Y|[[Y Z]|(r' & Y & Z)]]); [|congruence..]. exists c'. auto.
           ++ destruct H as (X & Y). auto.
           ++ destruct H as (X & Y). auto.
      * rewrite <- I8. unfold pending. rewrite D. cbn [busy app]. rewrite elem_of_cons. split; [auto|]. intros [X|X]; [discriminate X|exact X].
    + assert (vAud v = AWait None) as EA by (apply I8; unfold pending; rewrite D; left).
      cbn [deliver]. rewrite EA.
      constructor; rewrite ?dones_snoc, ?sends_snoc, ?recvs_snoc, ?app_nil_r; unfold pending; cbn [with_aud with_disp vKs vQueue vDisp vClients vAud undone busy app]; try assumption; try discriminate.
      * rewrite I5, D. cbn [undone]. rewrite ?app_nil_r. reflexivity.
      * intros j. pose proof (I7 j) as H. unfold client_ok in H |- *. unfold pending in H |- *. rewrite D in H.
        cbn [with_aud with_disp vClients vQueue vDisp busy app] in H |- *. rewrite own_snoc. cbn [concerns]. rewrite app_nil_r.
        assert (Client j ∉ Auditor :: map fst (vQueue v) -> Client j ∉ map fst (vQueue v)) as PP by (intros X Y; apply X; right; exact Y).
        destruct (vClients v !! j) as [[q' [c'|[r'|]|a']]|].
        -- destruct H as (X & Y & Z). auto.
        -- destruct H as (X & Y). auto.
        -- destruct H as (c' & X & [Y|[[Y Z]|(r' & Y & Z)]]); [|congruence..]. exists c'. auto.
        -- destruct H as (X & Y). auto.
        -- destruct H as (X & Y). auto.
      * split; [intros X; contradiction|discriminate].
      * intros r' [= <-]. apply I11. exact D.
  - (* a client is answered *)
    pose proof (I7 i) as Hi. unfold client_ok in Hi. rewrite N in Hi. destruct Hi as (H1 & c & H2 & H3).
    constructor; rewrite ?dones_snoc, ?sends_snoc, ?recvs_snoc, ?app_nil_r; try assumption.
    intros j. destruct (decide (j = i)) as [-> |Nj].
    + unfold client_ok. cbn [with_client vClients]. rewrite lookup_insert, own_snoc, H3. cbn [concerns]. rewrite bool_decide_eq_true_2 by reflexivity.
      split; [exact H1|]. right. exists c, r. auto.
    + apply (client_same j tr v); auto; [cbn; apply bool_decide_eq_false_2; congruence|].
      cbn [with_client vClients]. rewrite lookup_insert_ne by congruence. reflexivity.
  - apply (sinv_quiet ks0 tr v); cbn; auto. right. split; [congruence|eauto].
  - exfalso. rewrite (I12 _ A) in Er. discriminate Er.
  - apply (sinv_quiet ks0 tr v); cbn; auto. right. split; [congruence|auto].
  - apply (sinv_quiet ks0 tr v); cbn; auto.
  - apply (sinv_quiet ks0 tr v); cbn; auto; [intros d n [= <- <-]; right; lia|]. right. rewrite D. auto.
  - apply (sinv_quiet ks0 tr v); cbn; auto; [discriminate|]. right. rewrite D. auto.
  - apply (sinv_quiet ks0 tr v); cbn; auto; [intros d' n' [= <- <-]; right; lia|]. right. rewrite D. auto.
  - apply (sinv_quiet ks0 tr v); cbn; auto; [discriminate|]. right. rewrite D. auto.
  - apply (sinv_quiet ks0 tr v); cbn; auto; [discriminate|]. right. rewrite D. auto.
  - apply (sinv_quiet ks0 tr v); cbn; auto.
Qed.
Lemma sinv_runs path ks0 f now tr v : built ks0 -> runs path (serving ks0 f now) tr v -> sinv ks0 tr v.
Proof.
  intros B R. remember (serving ks0 f now) as v0 eqn:E0. induction R as [v|v tr v1 e v2 R IH St]; subst; [apply sinv_start; exact B|].
  eapply sinv_step; eauto.
Qed.
End WithCrypto.

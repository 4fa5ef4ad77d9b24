(** Lemmas: what fcrypt's options ask for, too few arguments, and the export of a key. *)
From Verif Require Import FcryptFiles KeyStoreCerts.
From Verif Require Export Mains SpecFcryptLine.
Local Open Scope Z_scope.

Lemma arguments_ok k : required_argc k = arguments k.
Proof. destruct k; reflexivity. Qed.

(** Each verb is on or not. *)
Lemma verb_on set vs v : only_verbs set vs -> bool_decide (v ∈ fcrypt_verbs) = true -> on set v = bool_decide (v ∈ vs).
Proof.
  intros O I. apply bool_decide_eq_true in I. specialize (O v I). destruct (on set v).
  - symmetry. apply bool_decide_eq_true. now apply O.
  - symmetry. apply bool_decide_eq_false. intros H. apply O in H. discriminate.
Qed.
Lemma fcr_does home set rest vs k : only_verbs set vs -> (vs, k) ∈ fcrypt_does (given set (bs "l") (bs "self")) ->
  chosen (fcrypt_options home set rest) = Some (k, match k with FCryptSign => true | _ => on set (bs "a") end).
Proof.
  intros O I. unfold chosen, fcrypt_options. cbn [lCheck lExport lImport lArmour lDecrypt lEncrypt lPath lList lLabel lRemove lSign lUntrusted lVerify lArgs].
  rewrite (verb_on _ _ (bs "check") O eq_refl), (verb_on _ _ (bs "export") O eq_refl), (verb_on _ _ (bs "import") O eq_refl), (verb_on _ _ (bs "d") O eq_refl),
    (verb_on _ _ (bs "e") O eq_refl), (verb_on _ _ (bs "k") O eq_refl), (verb_on _ _ (bs "r") O eq_refl), (verb_on _ _ (bs "s") O eq_refl),
    (verb_on _ _ (bs "u") O eq_refl), (verb_on _ _ (bs "v") O eq_refl).
  clear O. unfold fcrypt_does in I. set (lab := given set (bs "l") (bs "self")) in *. clearbody lab. revert I. rewrite !elem_of_cons, elem_of_nil. intros I.
  repeat match goal with H : _ \/ _ |- _ => destruct H as [H|H] end; try contradiction; injection I as -> ->;
    repeat match goal with |- context [bool_decide (?x ∈ ?l)] => let b := eval vm_compute in (bool_decide (x ∈ l)) in change (bool_decide (x ∈ l)) with b end; try reflexivity.
  cbn [orb andb]. change self with (bs "self"). destruct (decide (lab = bs "self")) as [->|N]; [reflexivity|]. rewrite bool_decide_eq_false_2 by exact N. reflexivity.
Qed.

Section WithCrypto.
Context `{C : Crypto} {L : CryptoLaws}.
Lemma fcr_few f o l k a w : chosen l = Some (k, a) -> (length (lArgs l) < arguments k)%nat -> fc_main f o l w = Fail w.
Proof. intros Hc H. unfold fc_main. rewrite Hc, arguments_ok, decide_True by exact H. reflexivity. Qed.
Lemma fcr_nothing f o l w : chosen l = None -> fc_main f o l w = Done RNone w.
Proof. intros Hc. unfold fc_main. now rewrite Hc. Qed.
Lemma fcr_absent f o l k a w : chosen l = Some (k, a) -> (arguments k <= length (lArgs l))%nat -> lPath l = [] \/ wFs w !! lPath l = None ->
  exists w', wFs w' = wFs w /\
    (starved (wRng w) 64 -> fc_main f o l w = Fail w') /\ (~ starved (wRng w) 64 -> fc_main f o l w = Crash w').
Proof. rewrite <- arguments_ok. apply fcr_no_store. Qed.

Lemma export_label l a : chosen l = Some (FExport, a) -> lLabel l <> bs "self".
Proof.
  unfold chosen. destruct (lCheck l), (lSign l), (lEncrypt l), (lVerify l), (lDecrypt l), (lRemove l), (lList l), (lExport l); cbn [andb]; try discriminate;
    try (destruct (lImport l); [destruct (lUntrusted l)|]; discriminate).
  destruct (bool_decide (lLabel l = self)) eqn:B; [discriminate|]. intros _. now apply bool_decide_eq_false in B.
Qed.
(** What -export -l label leaves in the file. *)
Lemma fcr_exported f o a l w p rest s rep w' : key_file (wFs w) (lPath l) s -> chosen l = Some (FExport, a) -> lArgs l = p :: rest -> plain_path p ->
  orders s (foChain o) -> (forall k r, krecord s k r -> krLabel r <> bs "self") -> fc_main f o l w = Done rep w' ->
  exists s1 r sig, let t := nth 3 (wClk w) 0 in
    passes w s s1 /\ opened s s1 /\ krecord s (lLabel l) r /\ trusted s1 (lLabel l) /\
    sign (ksPriv s1) (subject r ++ owner s1 ++ be 8 (t mod 2 ^ 64)) = Ret (Some sig) /\
    wFs w' = <[p := serialise (VKey (subject r) (owner s1) t sig)]> (wFs w) /\ wOut w' = wOut w /\ wPw w' = drop 1 (wPw w).
Proof.
  intros K Hc Ha Pp Or Nl H. pose proof (export_label _ _ Hc) as Ns.
  destruct (main_done_must f o l FExport a s w rep w' Hc) as (pass & s1 & w1 & s2 & w2 & E1 & E2 & Op & E3 & E4 & E5 & E6 & E7 & Kw & R & M & _);
    [rewrite Ha; cbn; lia|exact K|reflexivity|exact H|]. specialize (M eq_refl). subst w2. cbn [fc_run] in R. apply silent_done in R as [R ->].
  assert (ksKeys s1 = ksKeys s) as Ek by apply Op. unfold fc_export, farg in R. cbn [fArgs cfg_of fLabel] in R. rewrite Ha in R. cbn [nth] in R.
  destruct (w_now w1) as [now w1'] eqn:En. 
  destruct (export_verified (foChain o) (foRounds o) now s1 (lLabel l)) as [[[out|]|]|] eqn:Ex; cbn [lift then_ put_out] in R; try discriminate R.
  destruct (w_write w1' p out) as [[|] w2] eqn:Ew; cbn [then_] in R; [|discriminate R]. injection R as <- <-.
  apply export_exact in Ex as (_ & _ & V & [[X _]|(subj & sig & Who & Sg & ->)]); [contradiction|].
  destruct Who as [[X _]|(_ & r & Kr & <-)]; [contradiction|].
  assert (Hn : now = nth 3 (wClk w) 0 /\ wFs w1' = wFs w1 /\ wPw w1' = wPw w1 /\ wOut w1' = wOut w1).
  { unfold w_now in En. rewrite E5 in En. destruct (wClk w) as [|c0 [|c1 [|c2 [|c3 clk]]]]; cbn in En; injection En as <- <-; auto. }
  destruct Hn as (-> & F1 & F2 & F3). exists s1, r, sig. cbv zeta.
  assert (Vw : wFs w2 = <[p := serialise (VKey (subject r) (owner s1) (nth 3 (wClk w) 0) sig)]> (wFs w1') /\ wPw w2 = wPw w1' /\ wOut w2 = wOut w1').
  { split; [eapply w_write_ok; eauto|]. unfold w_write in Ew. rewrite decide_False in Ew by apply Pp. apply raw_write_true in Ew as (_ & A & _ & B). auto. }
  destruct Vw as (G1 & G2 & G3).
  split; [exists pass, (wPw w1); auto|]. split; [exact Op|]. split; [destruct Kr as (m & Em & Hm); exists m; split; congruence|].
  split.
  { destruct (verify_chain_sound (foChain o) (foRounds o) s1 (lLabel l)) as [X|X]; [| |exact V|contradiction|exact X].
    - intros i. eapply an_order_same; [exact Ek|apply Or].
    - intros k x (m & Em & Hm). apply (Nl k x). exists m. split; congruence. }
  split; [exact Sg|]. split; [rewrite G1, F1, E3; reflexivity|]. split; [congruence|]. rewrite G2, F2, E1. reflexivity.
Qed.

(** Exporting works for trusted labels, and whoever trusts this key can import the result. *)
Lemma fcr_export_certain f o a l w p rest s s1 d seed r : key_file (wFs w) (lPath l) s -> chosen l = Some (FExport, a) -> lArgs l = p :: rest -> plain_path p -> disk_ok w ->
  passes w s s1 -> holds_pair s1 d seed -> length d = 32%nat -> length seed = 32%nat -> krecord s (lLabel l) r ->
  verify_chain (foChain o) (foRounds o) s1 (lLabel l) = Ret (Some true) -> zlen (subject r) < 2 ^ 29 -> int64 (nth 3 (wClk w) 0) ->
  exists text v w', fc_main f o l w = Done RNone w' /\ wFs w' = <[p := text]> (wFs w) /\ parse_verified_key text = Some v /\
    vPublic v = subject r /\ vSigner v = pub_of d seed /\ vTime v = nth 3 (wClk w) 0 /\ certified (vPublic v) (vSigner v) (vTime v) (vSig v).
Proof.
  intros K Hc Ha Pp D P HP Hd Hs Kr V Hz Ht. pose proof (export_label _ _ Hc) as Ns.
  destruct (main_passes f o l FExport a s w s1 Hc) as (Op & _ & _); [rewrite Ha; cbn; lia|exact K|reflexivity|exact P|].
  assert (ksKeys s1 = ksKeys s) as Ek by apply Op. assert (Kr1 : krecord s1 (lLabel l) r) by (destruct Kr as (m & Em & Hm); exists m; split; congruence).
  set (t := nth 3 (wClk w) 0) in *. set (own := pub_of d seed).
  pose proof (keypair_certifies d seed (subject r) t Hs) as Ce.
  set (sig := ed_sign (seed ++ ed_pub seed) (subject r ++ (box_pub d ++ ed_pub seed) ++ be 8 (t mod 2 ^ 64))) in *.
  set (v := VKey (subject r) own t sig).
  assert (Ex : export_verified (foChain o) (foRounds o) t s1 (lLabel l) = Ret (Some (Some (serialise v)))).
  { destruct HP as (R & Lk & Pk & Ow). unfold export_verified. rewrite (proj2 (ks_quick_iff s1) R), Lk, V.
    rewrite (proj2 (ks_has_iff s1 (lLabel l))) by (split; [apply R|right; destruct Kr1 as (m & Em & Hm); exists m, (Some r); auto]).
    cbn [negb orb obind]. change self with (bs "self"). rewrite decide_False by exact Ns. rewrite (keys_of_record _ _ _ Kr1). cbn [obind].
    unfold certify. assert (obytes (ksPub s1) = own) as -> by (rewrite obytes_octets; exact Ow). assert (obytes (krKeys r) = subject r) as -> by (rewrite obytes_octets; reflexivity). rewrite Pk. reflexivity. }
  destruct (write_done (snd (w_now (world1 w))) p (serialise v) Pp) as (w' & Ew & F1 & F2 & F3).
  { unfold w_now. destruct (wClk (world1 w)); exact D. }
  assert (G : wFs (snd (w_now (world1 w))) = wFs w) by (unfold w_now; destruct (wClk (world1 w)); reflexivity).
  exists (serialise v), v, w'. split.
  { eapply quiet_opened; try exact Hc; try exact K; try exact P; try reflexivity; [rewrite Ha; cbn; lia|].
    cbn [fc_run]. unfold fc_export, farg. cbn [fArgs cfg_of fLabel]. rewrite Ha. cbn [nth].
    assert (Hn : fst (w_now (world1 w)) = t).
    { unfold w_now, t. cbn [world1 wClk]. destruct (wClk w) as [|c0 [|c1 [|c2 [|c3 clk]]]]; reflexivity. }
    destruct (w_now (world1 w)) as [now w1'] eqn:En. cbn [fst snd] in *. subst now. rewrite Ex. cbn [lift then_ put_out]. rewrite Ew. reflexivity. }
  split; [rewrite F1, G; reflexivity|]. split; [|repeat (split; [reflexivity|]); exact Ce].
  apply parse_serialise. split; [exact Ht|]. cbn [vPublic vSigner vSig v].
  assert (zlen own = 64) by (unfold zlen, own; rewrite length_pub_of; reflexivity). assert (zlen sig = 64) by (unfold zlen, sig; rewrite ed_sign_length; reflexivity). lia.
Qed.
(** What was exported is imported by a store that has the exporter's key, endorsed. *)
Lemma fcr_export_import f o a l w p rest s s1 d seed r : key_file (wFs w) (lPath l) s -> chosen l = Some (FExport, a) -> lArgs l = p :: rest -> plain_path p -> disk_ok w ->
  passes w s s1 -> holds_pair s1 d seed -> length d = 32%nat -> length seed = 32%nat -> krecord s (lLabel l) r ->
  verify_chain (foChain o) (foRounds o) s1 (lLabel l) = Ret (Some true) -> zlen (subject r) < 2 ^ 29 -> int64 (nth 3 (wClk w) 0) ->
  exists text w', fc_main f o l w = Done RNone w' /\ wFs w' = <[p := text]> (wFs w) /\
    forall f2 o2 a2 l2 p2 rest2 w2 t t1 pass ps x who, key_file (wFs w2) (lPath l2) t -> kwell t -> chosen l2 = Some (FImport, a2) ->
      lArgs l2 = p2 :: rest2 -> plain_path p2 -> wFs w2 !! p2 = Some text -> lLabel l2 <> bs "self" ->
      wPw w2 = Some pass :: ps -> ks_unlock (nth 2 (wClk w2) 0) t pass = Ret (true, t1) -> distinct_keys t1 -> ~ kpresent t1 (lLabel l2) ->
      pub_of d seed = owner t1 \/ pub_of d seed <> owner t1 /\ krecord t1 who x /\ subject x = pub_of d seed /\ who <> [] /\ endorsed t1 who ->
      an_order t (foOne o2) -> an_order t (foTwo o2) -> (forall y t2, added t1 (lLabel l2) y t2 -> an_order t2 (foThree o2)) -> disk_ok w2 ->
      exists w3, fc_main f2 o2 l2 w2 = Done RNone w3.
Proof.
  intros K Hc Ha Pp D P HP Hd Hs Kr V Hz Ht.
  destruct (fcr_export_certain f o a l w p rest s s1 d seed r K Hc Ha Pp D P HP Hd Hs Kr V Hz Ht) as (text & v & w' & Run & F & Pv & V1 & V2 & V3 & Ce).
  exists text, w'. split; [exact Run|]. split; [exact F|]. intros f2 o2 a2 l2 p2 rest2 w2 t t1 pass ps x who K2 W2 Hc2 Ha2 Pp2 F2 Ns2 Hp2 U2 Dk2 Np2 Tr2 O1 O2 O3 D2.
  assert (R1 : ready t1).
  { destruct (main_passes f2 o2 l2 FImport a2 t w2 t1 Hc2) as (Op & _ & _); [rewrite Ha2; cbn; lia|exact K2|reflexivity|exists pass, ps; auto|].
    destruct (proj2 (proj2 (proj2 K2))) as (R & _). destruct Op as (A1 & A2 & A3 & _). destruct R as (B1 & B2 & B3). unfold ready. rewrite A1, A2, A3. auto. }
  eapply fcr_import_certain; try exact Hc2; try exact Ha2; eauto. split; [exact R1|]. split; [exact Ns2|]. split; [exact Np2|]. split; [exact Ce|].
  rewrite V2. destruct Tr2 as [T|(T1 & T2 & T3 & T4 & T5)]; [now left|]. right. split; [exact T1|]. exists who, x. auto.
Qed.
End WithCrypto.

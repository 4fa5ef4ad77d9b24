(** Facts about the passcrypt command. *)
From Verif Require Export PasscryptPackFacts PasscryptDerFacts.
From Verif Require Import SecretFacts PemFacts.
Local Open Scope Z_scope.

(** *** Worlds with the same files *)
Definition alike (w w' : pworld) : Prop := qFs w' = qFs w /\ qCwd w' = qCwd w.
Lemma alike_base w w' p : alike w w' -> base w' p = base w p.
Proof. intros [_ E]. unfold base. rewrite E. reflexivity. Qed.
Lemma alike_loc w w' p : alike w w' -> loc w' p = loc w p.
Proof. intros A. unfold loc. rewrite (alike_base w w' p A). reflexivity. Qed.
Lemma alike_ready w w' : alike w w' -> ready w -> ready w'.
Proof. intros [E1 E2] [S D]. split; [rewrite E1; exact S|rewrite E1, E2; exact D]. Qed.
Lemma alike_reaches w w' p : alike w w' -> reaches w' p <-> reaches w p.
Proof. intros A. unfold reaches. rewrite (alike_base w w' p A), (alike_loc w w' p A). destruct A as [-> _]. reflexivity. Qed.
Lemma alike_can_write w w' p : alike w w' -> can_write w' p <-> can_write w p.
Proof. intros A. unfold can_write. rewrite (alike_base w w' p A), (alike_loc w w' p A). destruct A as [-> _]. reflexivity. Qed.
Lemma alike_listings G w w' cuts paths es : alike w w' -> listings G w' cuts paths es -> listings G w cuts paths es.
Proof. intros A (ess & E & L1 & L2 & H). exists ess. do 3 (split; [assumption|]). intros i p c e Hp Hc He. specialize (H i p c e Hp Hc He). rewrite (alike_loc w w' p A) in H. destruct A as [E1 _]. rewrite E1 in H. exact H. Qed.
Lemma calm_alike w w' : calm w w' -> qFs w' = qFs w -> alike w w'.
Proof. intros (E & _) F. split; assumption. Qed.
Lemma alike_trans a b c : alike a b -> alike b c -> alike a c.
Proof. intros [A1 A2] [B1 B2]. split; congruence. Qed.

(** *** Writing the archive *)
Definition put_out (p : bytes) (perm : Z) (d : bytes) (w : pworld) : bool * pworld :=
  match sys_open true p perm w with (None, w) => (false, w) | (Some l, w) => sys_write l d w end.
Lemma locate_new w p : ready w -> p <> [] -> (forall k, k ∈ removelast (way (base w p) (comps p)) -> a_dir (qFs w) k) -> a_dir (qFs w) (loc w p) \/ exists l c, loc w p = l ++ [c] /\ fname c /\ a_dir (qFs w) l.
Proof.
  intros Rw N H. assert (resolve (qFs w) (base w p) (comps p) = At (loc w p)) as E by (apply resolve_iff; auto). pose proof (comps_nonnil p) as Nc. destruct (exists_last Nc) as (cs & c & Ec). rewrite Ec, resolve_app in E.
  destruct (resolve (qFs w) (base w p) cs) as [l| |] eqn:El; [|discriminate..]. cbn [resolve] in E. destruct (qFs w !! l) as [[m|m d|]|] eqn:Em; [|discriminate..]. injection E as E. rewrite step_go in E. assert (a_dir (qFs w) l) as Dl by (exists m; exact Em).
  unfold go_step in E. destruct (decide (c = [] \/ c = bs ".")); [left; rewrite <- E; exact Dl|]. destruct (decide (c = bs "..")); [left; rewrite <- E; eapply sane_dirs; [apply Rw|exact Dl|apply removelast_prefix]|].
  right. exists l, c. split; [symmetry; exact E|]. split; [|exact Dl]. unfold fname. pose proof (comps_no_slash p) as F. rewrite Ec in F. apply Forall_app in F as [_ F]. inversion F; subst. tauto.
Qed.
Lemma put_out_spec p perm d w b w' : ready w -> put_out p perm d w = (b, w') ->
  calm w w' /\ ready w' /\ (forall l, l <> loc w p -> qFs w' !! l = qFs w !! l) /\
  (qFs w' = qFs w \/ can_write w p /\ exists m d', qFs w' !! loc w p = Some (Reg m d')) /\
  (b = true -> can_write w p /\ exists m, qFs w' !! loc w p = Some (Reg m d) /\ (m = lowered (qUmask w) perm \/ exists d0, qFs w !! loc w p = Some (Reg m d0))) /\
  (qFate w = [] -> can_write w p -> b = true).
Proof.
  intros Rw H. unfold put_out, sys_open in H. destruct (fate w) as [x w1] eqn:EF. destruct (fate_calm _ _ _ EF) as (K1 & Ef & N1). pose proof (ready_calm _ _ K1 Ef Rw) as R1. pose proof (calm_alike _ _ K1 Ef) as A1.
  assert (forall b w', (false, w1) = (b, w') -> (qFate w = [] -> ~ can_write w p) -> calm w w' /\ ready w' /\ (forall l, l <> loc w p -> qFs w' !! l = qFs w !! l) /\
  (qFs w' = qFs w \/ can_write w p /\ exists m d', qFs w' !! loc w p = Some (Reg m d')) /\
  (b = true -> can_write w p /\ exists m, qFs w' !! loc w p = Some (Reg m d) /\ (m = lowered (qUmask w) perm \/ exists d0, qFs w !! loc w p = Some (Reg m d0))) /\
  (qFate w = [] -> can_write w p -> b = true)) as Fail.
  { intros ? ? [= <- <-] X. split; [exact K1|]. split; [exact R1|]. split; [intros l _; rewrite Ef; reflexivity|]. split; [left; exact Ef|]. split; [discriminate|]. intros HF HC. destruct (X HF HC). }
  destruct x as [j|]; [apply Fail; [exact H|intros HF; discriminate (N1 HF)]|]. destruct (locate w1 p) as [l| |] eqn:EL.
  2-3: apply Fail; [exact H|]; intros _ (N & W & _); rewrite locate_is in EL by exact N; rewrite (alike_base w w1 p A1), Ef in EL; rewrite (proj2 (resolve_iff (qFs w) (comps p) (base w p) (loc w p))) in EL by auto; discriminate EL.
  assert (p <> []) as N by (intros ->; discriminate EL). rewrite locate_is in EL by exact N. rewrite (alike_base w w1 p A1), Ef in EL. apply resolve_iff in EL as [El W]. fold (loc w p) in El. subst l.
  assert (forall m old, (qFs w !! loc w p = Some (Reg m old) \/ qFs w !! loc w p = None /\ m = lowered (qUmask w) perm) -> sys_write (loc w p) d (set_fs w1 (<[loc w p := Reg m []]> (qFs w1))) = (b, w') ->
    calm w w' /\ ready w' /\ (forall l, l <> loc w p -> qFs w' !! l = qFs w !! l) /\
    (qFs w' = qFs w \/ can_write w p /\ exists m d', qFs w' !! loc w p = Some (Reg m d')) /\
    (b = true -> can_write w p /\ exists m, qFs w' !! loc w p = Some (Reg m d) /\ (m = lowered (qUmask w) perm \/ exists d0, qFs w !! loc w p = Some (Reg m d0))) /\
    (qFate w = [] -> can_write w p -> b = true)) as Go.
  { intros m old Ho Hw. assert (can_write w p) as CW by (split; [exact N|]; split; [exact W|]; destruct Ho as [X|[X _]]; eauto).
    assert (forall d', sane (<[loc w p := Reg m d']> (qFs w)) /\ a_dir (<[loc w p := Reg m d']> (qFs w)) (qCwd w)) as SI.
    { intros d'. split; [apply sane_insert|].
      - apply Rw.
      - intros _. destruct (locate_new w p Rw N W) as [[m0 D]|(l & c & E & Fc & Dl)]; [destruct Ho as [X|[X _]]; congruence|]. eauto.
      - intros E0. destruct (sane_root _ (proj1 Rw)) as [m0 D0]. rewrite E0 in Ho. destruct Ho as [X|[X _]]; congruence.
      - discriminate.
      - intros m1 d1 [= <- <-]. destruct Ho as [X|(X & ->)]; [|apply lowered_range]. destruct Rw as ((_ & _ & _ & Pr) & _). eapply Pr, X.
      - intros m0 E0. destruct Ho as [X|(X & _)]; congruence.
      - destruct Rw as [_ [m0 D0]]. exists m0. rewrite lookup_insert_ne; [exact D0|]. intros EX. rewrite EX in Ho. destruct Ho as [X|(X & _)]; congruence. }
    unfold sys_write in Hw. rewrite Ef in Hw. set (w2 := set_fs w1 (<[loc w p := Reg m []]> (qFs w))) in *. assert (calm w w2) as K2 by (eapply calm_trans; [exact K1|apply calm_fs]).
    destruct (fate w2) as [x w3] eqn:EF2. destruct (fate_calm _ _ _ EF2) as (K3 & Ef3 & N3). rewrite Ef3 in Hw. unfold w2 in Hw. cbn [qFs set_fs] in Hw. rewrite lookup_insert in Hw.
    pose proof (calm_trans _ _ _ K2 K3) as K23. unfold overwrite in Hw. rewrite !drop_nil, !app_nil_r in Hw. assert (forall e, qFs (set_fs w3 (<[loc w p:=Reg m e]> (<[loc w p:=Reg m []]> (qFs w)))) = <[loc w p := Reg m e]> (qFs w)) as EI by (intros e; cbn; apply insert_insert).
    assert (forall e, ready (set_fs w3 (<[loc w p:=Reg m e]> (<[loc w p:=Reg m []]> (qFs w))))) as RI by (intros e; destruct (SI e) as [S1 D1]; split; rewrite EI; [exact S1|]; cbn [qCwd set_fs]; destruct K23 as (-> & _); exact D1).
    assert (forall e l, l <> loc w p -> qFs (set_fs w3 (<[loc w p:=Reg m e]> (<[loc w p:=Reg m []]> (qFs w)))) !! l = qFs w !! l) as NI by (intros e l Nl; rewrite EI; apply lookup_insert_ne; congruence).
    assert (forall e, qFs (set_fs w3 (<[loc w p:=Reg m e]> (<[loc w p:=Reg m []]> (qFs w)))) !! loc w p = Some (Reg m e)) as LI by (intros e; rewrite EI; apply lookup_insert).
    destruct x as [n|]; injection Hw as <- <-; (split; [eapply calm_trans; [exact K23|apply calm_fs]|]); (split; [apply RI|]); (split; [apply NI|]); (split; [right; split; [exact CW|]; do 2 eexists; apply LI|]); split.
    - discriminate.
    - intros HF. assert (qFate w2 = []) as F2 by (apply K2, HF). discriminate (N3 F2).
    - intros _. split; [exact CW|]. exists m. split; [apply LI|]. destruct Ho as [X|[_ X]]; eauto.
    - reflexivity. }
  rewrite Ef in H. destruct (qFs w !! loc w p) as [[m|m old|]|] eqn:EN.
  - apply Fail; [exact H|]. intros _ (_ & _ & [X|(? & ? & X)]); congruence.
  - rewrite <- Ef in H. eapply (Go m old); [auto|exact H].
  - apply Fail; [exact H|]. intros _ (_ & _ & [X|(? & ? & X)]); congruence.
  - rewrite <- Ef in H. rewrite create_lowered in H. replace (qUmask w1) with (qUmask w) in H by (symmetry; apply K1). eapply (Go (lowered (qUmask w) perm) []); [right; auto|exact H].
Qed.

Section WithCrypto.
Context (G : gzip) `{C : Crypto} {L : CryptoLaws}.

(** *** Packing *)
Lemma listings_go w cuts paths es : ready w -> listings G w cuts paths es -> Forall go_file es.
Proof.
  intros Rw (ess & -> & L1 & L2 & H). apply Forall_concat. apply Forall_lookup. intros i e He. destruct (lookup_lt_is_Some_2 paths i) as [p Hp]; [rewrite <- L2; eapply lookup_lt_Some, He|]. destruct (lookup_lt_is_Some_2 cuts i) as [c Hc]; [rewrite L1; eapply lookup_lt_Some, Hp|].
  destruct (H i p c e Hp Hc He) as (_ & ss & _ & _ & F). clear - F Rw. induction F as [|s x ss e X F IH]; constructor; [|exact IH]. unfold entry in X. unfold go_file, int64. destruct Rw as ((_ & _ & A & B) & _).
  destruct (qFs w !! (loc w p ++ s)) as [[m|m d|]|] eqn:E; [| |destruct X..]; subst x; cbn; [apply A in E|apply B in E]; lia.
Qed.
(** Whatever happens: nothing but the output changes, and that only by being written. *)
Lemma pc_pack_frame paths armour out w b w' : ready w -> pc_pack G paths armour out w = (b, w') ->
  kept w w' /\ ready w' /\ qOut w' = qOut w /\ (forall l, l <> loc w out -> qFs w' !! l = qFs w !! l) /\
  (qFs w' = qFs w \/ can_write w out /\ exists m d, qFs w' !! loc w out = Some (Reg m d)).
Proof.
  intros Rw H. unfold pc_pack in H. assert (forall w2, alike w w2 -> kept w w2 -> qOut w2 = qOut w -> kept w w2 /\ ready w2 /\ qOut w2 = qOut w /\ (forall l, l <> loc w out -> qFs w2 !! l = qFs w !! l) /\
    (qFs w2 = qFs w \/ can_write w out /\ exists m d, qFs w2 !! loc w out = Some (Reg m d))) as Same.
  { intros w2 A K E. split; [exact K|]. split; [eapply alike_ready; [exact A|exact Rw]|]. split; [exact E|]. destruct A as [E1 _]. split; [intros; rewrite E1; reflexivity|]. left. exact E1. }
  assert (kept w w) as Kr by (split; [reflexivity|]; split; [reflexivity|auto]).
  destruct (decide (paths = [])); [injection H as <- <-; apply Same; [split; reflexivity|exact Kr|reflexivity]|]. destruct (q_pass w) as [x w1] eqn:EP.
  assert (alike w w1 /\ kept w w1 /\ qOut w1 = qOut w) as (A1 & K1 & O1). { unfold q_pass in EP. destruct (qPw w); injection EP as <- <-; (split; [split; reflexivity|]; split; [split; [reflexivity|]; split; [reflexivity|auto]|reflexivity]). }
  destruct x as [pass|]; [|injection H as <- <-; apply Same; assumption]. destruct (rand 32 (qRng w1)) as [salt g]. assert (alike w (set_qrng w1 g) /\ kept w (set_qrng w1 g) /\ qOut (set_qrng w1 g) = qOut w) as (A2 & K2 & O2) by (cbn; auto).
  destruct salt as [salt|]; [|injection H as <- <-; apply Same; assumption]. rewrite derive_key_is in H. destruct (pack_roots G paths (set_qrng w1 g)) as [r w3] eqn:ER. destruct (pack_roots_spec G _ _ _ _ (alike_ready _ _ A2 Rw) ER) as (K3 & E3 & _).
  assert (alike w w3 /\ kept w w3 /\ qOut w3 = qOut w) as (A3 & K3' & O3). { split; [eapply alike_trans; [exact A2|apply calm_alike; assumption]|]. destruct K3 as (?&?&?&?&?&?), K2 as (?&?&?). split; [|congruence]. split; [congruence|]. split; [congruence|auto]. }
  destruct r as [l|]; [|injection H as <- <-; apply Same; assumption]. destruct (der_files l) as [s|]; [|injection H as <- <-; apply Same; assumption].
  destruct (encrypt (Some (scrypt_raw pass salt (2 ^ 20) 8 2)) s (qRng w3)) as [[[e|] g2]|]; [|injection H as <- <-; apply Same; cbn; assumption..].
  set (w4 := set_qrng w3 g2) in *. set (d := if armour then _ else _) in H. fold (put_out out 420 d w4) in H. assert (alike w w4) as A4 by exact A3. pose proof (alike_ready _ _ A4 Rw) as R4.
  destruct (put_out_spec _ _ _ _ _ _ R4 H) as (K5 & R5 & F5 & M5 & _). rewrite (alike_loc w w4 out A4) in *. destruct A4 as [E4 E4'].
  split. { destruct K5 as (?&?&?&?&?&?), K3' as (?&?&?). unfold w4 in *. cbn in *. split; [congruence|]. split; [congruence|auto]. }
  split; [exact R5|]. split. { destruct K5 as (_&_&_&_&?&_). unfold w4 in *. cbn in *. congruence. } rewrite E4 in F5, M5. split; [exact F5|]. destruct M5 as [X|[X Y]]; [left; exact X|right]. split; [|exact Y]. revert X. apply (alike_can_write w w4). split; [exact E4|exact E4'].
Qed.
Lemma pc_pack_nothing armour out w : pc_pack G [] armour out w = (true, w).
Proof. reflexivity. Qed.
(** On success: the archive of what is there. *)
Lemma pc_pack_success paths armour out w w' : ready w -> paths <> [] -> pc_pack G paths armour out w = (true, w') ->
  can_write w out /\ Forall (reaches w) paths /\
  exists pass pws salt nonce g cuts es s c m,
    qPw w = Some pass :: pws /\ qPw w' = pws /\ length salt = 32%nat /\ length nonce = 24%nat /\ delivers (qRng w) (salt ++ nonce) g /\ qRng w' = g /\
    listings G w cuts paths es /\ (qFate w = [] -> Forall (eq []) cuts) /\ Forall go_file es /\ (zlen s < 2 ^ 64 -> files_der es s) /\ (forall x, x ∈ es -> utf8_text (fPath x)) /\
    file_format (2 ^ 20) 8 2 pass salt nonce s c /\ qFs w' !! loc w out = Some (Reg m (content armour c)) /\
    (m = lowered (qUmask w) 420 \/ exists d0, qFs w !! loc w out = Some (Reg m d0)).
Proof.
  intros Rw Np H. unfold pc_pack in H. rewrite decide_False in H by exact Np. destruct (q_pass w) as [x w1] eqn:EP. destruct x as [pass|]; [|discriminate].
  assert (exists pws, qPw w = Some pass :: pws /\ w1 = PW (qFs w) (qCwd w) (qUmask w) pws (qRng w) (qFate w) (qOut w)) as (pws & EQ & ->). { unfold q_pass in EP. destruct (qPw w) as [|q pws]; [discriminate|]. injection EP as -> <-. eauto. }
  cbn [qRng] in H. destruct (rand 32 (qRng w)) as [salt g] eqn:ES. destruct salt as [salt|]; [|discriminate]. apply read_full_some in ES as [LS DS]. rewrite derive_key_is in H. set (w2 := set_qrng _ g) in H. assert (alike w w2) as A2 by (split; reflexivity).
  destruct (pack_roots G paths w2) as [r w3] eqn:ER. destruct (pack_roots_spec G _ _ _ _ (alike_ready _ _ A2 Rw) ER) as (K3 & E3 & S3). destruct r as [es|]; [|discriminate]. destruct (S3 es eq_refl) as (Re & cuts & Li & Ct).
  destruct (der_files es) as [s|] eqn:ED; [|discriminate]. destruct (encrypt (Some (scrypt_raw pass salt (2 ^ 20) 8 2)) s (qRng w3)) as [[[e|] g2]|] eqn:EE; [|discriminate..].
  apply encrypt_inv in EE as [[X _]|(nonce & LN & DN & [= ->])]; [discriminate|]. set (w4 := set_qrng w3 g2) in *. set (d := if armour then _ else _) in H. fold (put_out out 420 d w4) in H.
  assert (alike w w3) as A3 by (eapply alike_trans; [exact A2|apply calm_alike; assumption]). assert (alike w w4) as A4 by exact A3. pose proof (alike_ready _ _ A4 Rw) as R4. destruct (put_out_spec _ _ _ _ _ _ R4 H) as (K5 & _ & _ & _ & S5 & _). destruct (S5 eq_refl) as (CW & m & E5 & Em).
  rewrite (alike_loc w w4 out A4) in *. split; [revert CW; apply (alike_can_write w w4), A4|]. split; [eapply Forall_impl; [exact Re|]; intros q; apply (alike_reaches w w2), A2|]. assert (listings G w cuts paths es) as Li' by (apply (alike_listings G w w2); assumption). pose proof (listings_go w cuts paths es Rw Li') as Go.
  exists pass, pws, salt, nonce, g2, cuts, es, s, (salt ++ nonce ++ sbox_seal (scrypt_raw pass salt (2 ^ 20) 8 2) nonce s), m. split; [exact EQ|].
  destruct K5 as (_ & U5 & P5 & R5 & _), K3 as (_ & U3 & P3 & R3 & _). split; [rewrite P5; cbn; rewrite P3; reflexivity|]. split; [exact LS|]. split; [exact LN|]. split; [unfold delivers in *; rewrite DS; rewrite R3 in DN; cbn in DN; rewrite DN, map_app, <- app_assoc; reflexivity|]. split; [rewrite R5; reflexivity|].
  split; [exact Li'|]. split; [exact Ct|]. split; [exact Go|]. split; [apply der_files_is; assumption|]. split.
  { intros x Hx. destruct (utf8_valid (fPath x)) eqn:V; [apply utf8_valid_iff, V|]. exfalso. assert (der_files es = None) as X by (apply der_files_none; exists x; split; [exact Hx|]; intros U; apply utf8_valid_iff in U; congruence). congruence. }
  split. { split; [exact LS|]. eexists. split; [split; [exact LN|reflexivity]|reflexivity]. } split; [exact E5|]. replace (qUmask w4) with (qUmask w) in Em by (unfold w4; cbn; rewrite U3; reflexivity). destruct A4 as [E4 _]. rewrite E4 in Em. exact Em.
Qed.
Lemma sorted_nodup {A} (lt : A -> A -> Prop) l : (forall x, ~ lt x x) -> StronglySorted lt l -> NoDup l.
Proof. intros I S. induction S as [|x l S IH F]; constructor; [|exact IH]. intros H. rewrite Forall_forall in F. apply (I x), F, H. Qed.
Lemma path_lt_irrefl a : ~ path_lt a a.
Proof. intros H. apply path_lt_prefix in H. apply H. reflexivity. Qed.
Lemma path_lt_trans a b c : path_lt a b -> path_lt b c -> path_lt a c.
Proof. apply lex_trans, name_lt_trans. Qed.
Lemma sorted_same a : forall b, StronglySorted path_lt a -> StronglySorted path_lt b -> (forall s, s ∈ a <-> s ∈ b) -> a = b.
Proof.
  induction a as [|x a IH]; intros [|y b] Sa Sb H.
  - reflexivity.
  - assert (y ∈ []) as X by (apply H; left). apply elem_of_nil in X as [].
  - assert (x ∈ []) as X by (apply H; left). apply elem_of_nil in X as [].
  - inversion Sa as [|? ? Sa' Fa]; inversion Sb as [|? ? Sb' Fb]; subst. rewrite Forall_forall in Fa, Fb. assert (x = y) as <-.
    { assert (x ∈ y :: b) as [X|X]%elem_of_cons by (apply H; left); [exact X|]. assert (y ∈ x :: a) as [Y|Y]%elem_of_cons by (apply H; left); [congruence|]. destruct (path_lt_irrefl x). eapply path_lt_trans; [apply Fa, Y|apply Fb, X]. }
    f_equal. apply IH; [exact Sa'|exact Sb'|]. intros s. specialize (H s). rewrite !elem_of_cons in H. split; intros X.
    + destruct (proj1 H (or_intror X)) as [->|Y]; [destruct (path_lt_irrefl x); apply Fa, X|exact Y].
    + destruct (proj2 H (or_intror X)) as [->|Y]; [destruct (path_lt_irrefl x); apply Fb, X|exact Y].
Qed.
Lemma listing_fun f l p cut e e' : listing G f l p cut e -> listing G f l p cut e' -> e = e'.
Proof.
  intros (_ & ss & S & M & F) (_ & ss' & S' & M' & F'). assert (ss' = ss) as -> by (apply sorted_same; [exact S'|exact S|]; intros s; rewrite M, M'; reflexivity). clear - F F'. revert e' F'. induction F as [|s x ss e H F IH]; intros e' F'; inversion F' as [|? y ? e0 H' F0]; subst; [reflexivity|]. f_equal; [|apply IH, F0].
  unfold entry in *. destruct (f !! (l ++ s)) as [[m|m d|]|]; [congruence..|destruct H|destruct H].
Qed.
Lemma listings_fun w cuts cuts' paths es es' : listings G w cuts paths es -> listings G w cuts' paths es' -> Forall (eq []) cuts -> Forall (eq []) cuts' -> es = es'.
Proof.
  intros (ess & -> & L1 & L2 & H) (ess' & -> & L1' & L2' & H') C1 C2. f_equal. apply list_eq_same_length with (n := length paths); [lia|lia|]. intros i e e' Li He He'. destruct (lookup_lt_is_Some_2 paths i Li) as [p Hp]. destruct (lookup_lt_is_Some_2 cuts i) as [c Hc]; [lia|]. destruct (lookup_lt_is_Some_2 cuts' i) as [c' Hc']; [lia|].
  rewrite Forall_lookup in C1, C2. assert (c = c') as -> by (rewrite <- (C1 i c Hc), <- (C2 i c' Hc'); reflexivity). eapply listing_fun; [eapply H; eassumption|eapply H'; eassumption].
Qed.
(** When it succeeds. *)
Lemma pc_pack_live paths armour out w pass pws salt nonce g : ready w -> paths <> [] -> qFate w = [] -> qPw w = Some pass :: pws -> length salt = 32%nat -> length nonce = 24%nat -> delivers (qRng w) (salt ++ nonce) g ->
  Forall (reaches w) paths -> can_write w out -> (exists w', pc_pack G paths armour out w = (true, w')) <-> (forall cuts es, listings G w cuts paths es -> Forall (eq []) cuts -> forall x, x ∈ es -> utf8_text (fPath x)).
Proof.
  intros Rw Np HF EP LS LN D Re CW. unfold pc_pack. rewrite decide_False by exact Np. unfold q_pass. rewrite EP. cbn [qRng]. unfold delivers in D. rewrite map_app, <- app_assoc in D. rewrite (rand_delivers 32 (qRng w) salt (map Some nonce ++ g) LS D). rewrite derive_key_is. set (w2 := set_qrng _ _). assert (alike w w2) as A2 by (split; reflexivity).
  pose proof (alike_ready _ _ A2 Rw) as R2. destruct (pack_roots_live G paths w2 R2) as [es Ees]; [exact HF|eapply Forall_impl; [exact Re|]; intros q; apply (alike_reaches w w2), A2|]. rewrite Ees. destruct (pack_roots_spec G _ _ _ _ R2 Ees) as (_ & _ & S3). destruct (S3 es eq_refl) as (_ & cuts & Li & Ct).
  specialize (Ct HF). apply (alike_listings G w w2) in Li; [|exact A2]. split.
  - intros [w' H] cuts' es' Li' Ct' x Hx. destruct (der_files es) as [s|] eqn:ED; [|discriminate]. assert (es' = es) as -> by (eapply (listings_fun w cuts' cuts); eassumption). destruct (utf8_valid (fPath x)) eqn:V; [apply utf8_valid_iff, V|]. exfalso.
    assert (der_files es = None) as X by (apply der_files_none; exists x; split; [exact Hx|]; intros U; apply utf8_valid_iff in U; congruence). congruence.
  - intros U. destruct (der_files es) as [s|] eqn:ED; [|apply der_files_none in ED as (x & Hx & Nx); destruct (Nx (U _ _ Li Ct x Hx))]. unfold w2 at 1. cbn [qRng set_qrng]. rewrite (encrypt_delivers _ s (map Some nonce ++ g) nonce g LN) by reflexivity.
    set (w4 := set_qrng w2 g). set (d := if armour then _ else _). fold (put_out out 420 d w4). destruct (put_out out 420 d w4) as [b w'] eqn:EO. assert (alike w w4) as A4 by (split; reflexivity). destruct (put_out_spec _ _ _ _ _ _ (alike_ready _ _ A4 Rw) EO) as (_ & _ & _ & _ & _ & Lv).
    exists w'. rewrite Lv; [reflexivity|exact HF|]. apply (alike_can_write w w4); [exact A4|exact CW].
Qed.
End WithCrypto.

(** Proofs about Fcrypt.v: the commands on the key store. *)
From Verif Require Export FcryptClaims.
Local Open Scope Z_scope.

(** *** What a key store file holds is text with 64-bit numbers *)
Definition good_krec (r : krec) : Prop :=
  (int64 (krVersion r) /\ int64 (krTime r) /\ int64 (krSigTime r)) /\ utf8_text (krLabel r) /\
  forall md, krMeta r = Some md -> map_Forall (fun k t => utf8_text k /\ utf8_text t) md.
Definition good_kstore (s : kstore) : Prop :=
  int64 (ksVersion s) /\ int64 (ksTime s) /\
  forall m, ksKeys s = Some m -> map_Forall (fun k v => utf8_text k /\ forall r, v = Some r -> good_krec r) m.
Lemma int64_0 : int64 0.
Proof. unfold int64. lia. Qed.
Lemma dec_krec_good j r : text_json j -> dec_krec j = Some r -> good_krec r.
Proof.
  intros T. unfold dec_krec. apply dec_struct_ok; [|exact T|].
  2:{ split; [cbn; pose proof int64_0; auto|]. split; [constructor|]. cbn. discriminate. }
  clear. intros k j a a' T ((G1 & G2 & G3) & L & M). unfold krec_field. destruct a as [l ve t ks sg si st md]. cbn [krLabel krVersion krTime krSigTime krMeta] in *.
  repeat (destruct (field_is _ k); [match goal with |- match ?e with _ => _ end = _ -> _ => destruct e eqn:E; [|discriminate] end; intros [= <-];
    refine (conj (conj _ (conj _ _)) (conj _ _)); cbn [krLabel krVersion krTime krSigTime krMeta]; auto;
    first [exact (dec_int_range _ _ _ G1 E)|exact (dec_int_range _ _ _ G2 E)|exact (dec_int_range _ _ _ G3 E)|exact (dec_str_text _ _ _ T L E)|
      eapply dec_map_ok; [|exact T|exact M|exact E]; intros j0 v0 T0 E0; eapply dec_str_text; [exact T0|constructor|exact E0]]|]).
  intros [= <-]. refine (conj (conj _ (conj _ _)) (conj _ _)); auto.
Qed.
Lemma dec_kstore_good j s : text_json j -> dec_kstore j = Some s -> good_kstore s.
Proof.
  intros T. unfold dec_kstore. apply dec_struct_ok; [|exact T|].
  2:{ unfold good_kstore. cbn. pose proof int64_0. split; [auto|]. split; [auto|]. discriminate. }
  clear. intros k j a a' T (G1 & G2 & M). unfold kstore_field. destruct a as [ve t ks b p e pr lk]. cbn [ksVersion ksTime ksKeys] in *.
  repeat (destruct (field_is _ k); [match goal with |- match ?e with _ => _ end = _ -> _ => destruct e eqn:E; [|discriminate] end; intros [= <-];
    refine (conj _ (conj _ _)); cbn [ksVersion ksTime ksKeys]; auto;
    first [exact (dec_int_range _ _ _ G1 E)|exact (dec_int_range _ _ _ G2 E)|
      eapply dec_map_ok; [|exact T|exact M|exact E]; clear; intros j v T E r ->; unfold dec_ptr in E;
      assert (dec_krec j = Some r) as D by (destruct j; try discriminate; destruct (dec_krec _); congruence);
      eapply dec_krec_good; eauto]|]).
  intros [= <-]. exact (conj G1 (conj G2 M)).
Qed.
Lemma good_kgo s : good_kstore s -> go_kstore s.
Proof. intros (A & B & M). split; [exact A|]. split; [exact B|]. intros l r (m & E & H). apply (M m E l _ H). reflexivity. Qed.
Lemma good_ktext s : good_kstore s -> text_kstore s.
Proof.
  intros (A & B & M) m l v E H. destruct (M m E l v H) as [T R]. split; [exact T|]. intros r Er. destruct (R r Er) as (_ & Lb & D).
  split; [exact Lb|]. intros md k t Em Ek. apply (D md Em k t Ek).
Qed.
Lemma good_time s t : good_kstore s -> int64 t -> good_kstore (at_time s t).
Proof. intros (A & B & M) T. exact (conj A (conj T M)). Qed.
Lemma good_without s l s' : without s l s' -> good_kstore s -> good_kstore s'.
Proof.
  intros (m & E & ->) (A & B & M). refine (conj A (conj B _)). cbn [ksKeys]. intros m' [= <-] k v H. apply lookup_delete_Some in H as [_ H]. exact (M m E k v H).
Qed.
Lemma good_added s l r s' : added s l r s' -> good_kstore s -> utf8_text l -> good_krec r -> good_kstore s'.
Proof.
  intros (m & E & ->) (A & B & M) T R. refine (conj A (conj B _)). cbn [ksKeys]. intros m' [= <-]. apply map_Forall_insert_2; [|exact (M m E)].
  split; [exact T|]. intros r' [= <-]. exact R.
Qed.

Section WithCrypto.
Context {C : Crypto} {L : CryptoLaws}.

Lemma load_good f path d orNew n1 n2 g s g' : f !! path = Some d -> load_kstore f path orNew n1 n2 g = Ret (Some s, g') -> good_kstore s.
Proof.
  unfold load_kstore, read_file. intros ->. destruct (parse_json d) as [j|] eqn:P; [|discriminate]. destruct (dec_kstore j) as [s0|] eqn:D; [|discriminate].
  cbv zeta. match goal with |- (if ?b then _ else _) = _ -> _ => destruct b end; [discriminate|]. intros [= <- _].
  pose proof (dec_kstore_good _ _ (parsed_text _ _ P) D) as (A & B & M). refine (conj A (conj B _)). cbn [ksKeys]. intros m [= <-].
  unfold kkeys. destruct (ksKeys s0) as [m|] eqn:E; cbn; [exact (M m eq_refl)|apply map_Forall_empty].
Qed.
Lemma key_file_good f path s : key_file f path s -> good_kstore s.
Proof. intros (_ & [d F] & Ld & _). eapply load_good; [exact F|exact (Ld true 0 0 [])]. Qed.
Lemma opened_good s s' : opened s s' -> good_kstore s -> good_kstore s'.
Proof. intros (E1 & E2 & E3 & _) (A & B & M). unfold good_kstore. rewrite E1, E2, E3. auto. Qed.
(** What was written is a key store again. *)
Lemma rewritten f path s : path <> [] -> ready s -> ksBlob s <> None -> length (owner s) = 64%nat -> good_kstore s -> f !! path = Some (ks_dump s) ->
  key_file f path (closed_copy s).
Proof.
  intros N R B Ow G F. split; [exact N|]. split; [eauto|]. split; [intros; apply load_dump; auto using good_kgo, good_ktext|].
  split; [exact R|]. split; [exact Ow|]. unfold closed_copy. cbn [ksLocked]. destruct (ksBlob s); [discriminate|contradiction].
Qed.
Lemma closed_same s : ksPriv s = None -> ksLocked s = true -> ksBlob s <> None -> closed_copy s = s.
Proof. destruct s as [ve t ks b p e pr lk]. cbn. intros -> -> B. unfold closed_copy. cbn. destruct b; [reflexivity|contradiction]. Qed.
Lemma raw_write_true w p d w' : w_raw_write w p d = (true, w') -> wFs w' = <[p := d]> (wFs w) /\ wPw w' = wPw w /\ wIn w' = wIn w /\ wOut w' = wOut w.
Proof.
  unfold w_raw_write. destruct (decide _); [discriminate|]. destruct (match wFate w with [] => _ | _ => _ end) as [fate rest].
  destruct fate; cbn; intros [= <-]; auto.
Qed.
Lemma clock_tick2 w : clock (tick (tick w)) = nth 2 (wClk w) 0.
Proof. unfold clock, tick. cbn [wClk]. destruct (wClk w) as [|? [|? [|? ?]]]; reflexivity. Qed.
Lemma clock_int64 w : good_clock w -> int64 (clock w).
Proof. unfold clock, good_clock. intros G. destruct (wClk w); [apply int64_0|]. inversion G. assumption. Qed.

(** *** No store *)
Lemma fcr_no_store f o l k a w : chosen l = Some (k, a) -> (required_argc k <= length (lArgs l))%nat -> lPath l = [] \/ wFs w !! lPath l = None ->
  exists w', wFs w' = wFs w /\
    (starved (wRng w) 64 -> fc_main f o l w = Fail w') /\ (~ starved (wRng w) 64 -> fc_main f o l w = Crash w').
Proof.
  intros Hc Ha M. destruct (fc_load_missing (lPath l) w M) as [A B]. unfold fc_main. rewrite Hc. destruct (decide _) as [X|_]; [lia|].
  destruct (delivers_or_starved (wRng w) 64) as [(p & g & Hl & D)|S].
  - destruct B as (w' & E & K); [intros X; exact (X p g Hl D)|]. exists w'. split; [apply keeps_fs, K|]. rewrite E. cbn [then_]. split; [|auto].
    intros X. destruct (X p g Hl D).
  - destruct (A S) as (w' & E & K). exists w'. split; [apply keeps_fs, K|]. rewrite E. cbn [then_]. split; [auto|contradiction].
Qed.
Lemma fcr_too_few f o l w : (forall k a, chosen l = Some (k, a) -> (length (lArgs l) < required_argc k)%nat) ->
  fc_main f o l w = Fail w \/ chosen l = None /\ fc_main f o l w = Done RNone w.
Proof.
  intros H. unfold fc_main. destruct (chosen l) as [[k a]|]; [|auto]. left. destruct (decide _) as [_|X]; [reflexivity|]. specialize (H k a eq_refl). contradiction.
Qed.

(** *** Removing *)
Lemma without_remove s l : ksKeys s <> None -> without s l (remove_key s l).
Proof. intros R. unfold without, remove_key. destruct (ksKeys s) as [m|]; [|contradiction]. exists m. auto. Qed.
Lemma without_same s l s' : without s l s' -> ksVersion s' = ksVersion s /\ ksTime s' = ksTime s /\ ksBlob s' = ksBlob s /\ ksPub s' = ksPub s /\
  ksExport s' = ksExport s /\ ksPriv s' = ksPriv s /\ ksLocked s' = ksLocked s /\ ksKeys s' <> None.
Proof. intros (m & _ & ->). cbn. repeat split. discriminate. Qed.
Lemma fcr_removing f o l a label rest s w : key_file (wFs w) (lPath l) s -> chosen l = Some (FRemove, a) -> lArgs l = label :: rest -> disk_ok w ->
  let t := nth 2 (wClk w) 0 in
  (label = bs "self" \/ ~ kpresent s label -> exists w', fc_main f o l w = Fail w' /\ wFs w' = wFs w) /\
  (label <> bs "self" -> kpresent s label -> exists s' w', fc_main f o l w = Done RNone w' /\ without s label s' /\
     wFs w' = <[lPath l := ks_dump (at_time s' t)]> (wFs w) /\ wPw w' = wPw w /\ wIn w' = wIn w /\ wOut w' = wOut w /\
     (int64 t -> t <> 0 -> key_file (wFs w') (lPath l) (at_time s' t))).
Proof.
  intros K Hc Ha D t. destruct (key_file_locked _ _ _ K) as (R & P & Lk & Bl).
  rewrite (main_eq f o l FRemove a s w Hc) by (try exact K; rewrite Ha; cbn; lia). cbn [needs_unlock then_ fc_run].
  assert (farg 0 (cfg_of l a) = label) as Fa by (unfold farg; cbn [fArgs cfg_of]; rewrite Ha; reflexivity).
  split.
  - intros X. exists (tick (tick w)). split; [|reflexivity]. unfold fc_remove. rewrite Fa. change self with (bs "self").
    destruct (decide (label = bs "self")) as [|N]; [reflexivity|]. destruct X as [X|X]; [contradiction|].
    rewrite (ks_has_not s label R N X). reflexivity.
  - intros N Pr. exists (remove_key s label). assert (fc_remove s (cfg_of l a) (tick (tick w)) = Done (remove_key s label) (tick (tick w))) as ->.
    { apply remove_done. rewrite Fa. split; [exact N|]. split; [|auto]. apply ks_has_iff. auto. }
    cbn [silent then_ fst snd must should_write orb]. rewrite finish_writes by (apply no_priv; exact P). rewrite clock_tick2. fold t.
    destruct (w_raw_write _ _ _) as [ok w'] eqn:W. destruct (raw_write_disk _ _ _ _ _ W) as (-> & Ef & _ & Eo & Ep & Ei); [exact D|apply K|].
    exists w'. pose proof (without_remove s label (proj2 (proj2 R))) as Wo. destruct (without_same _ _ _ Wo) as (W1 & W2 & W3 & W4 & W5 & W6 & W7 & W8).
    split; [reflexivity|]. split; [exact Wo|]. cbn [tick wFs wPw wIn wOut] in *. split; [exact Ef|]. split; [exact Ep|]. split; [exact Ei|]. split; [exact Eo|].
    intros I Z. rewrite <- (closed_same (at_time (remove_key s label) t)); [| exact P|exact Lk|exact Bl].
    apply rewritten; [apply K| |exact Bl|apply K| |rewrite Ef; apply lookup_insert].
    + split; [apply R|]. split; [exact Z|exact W8].
    + apply good_time; [|exact I]. eapply good_without; [exact Wo|]. eapply key_file_good, K.
Qed.
(** A write that is cut short loses the store. *)
Lemma fcr_torn f o l a label rest s w fates : key_file (wFs w) (lPath l) s -> chosen l = Some (FRemove, a) -> lArgs l = label :: rest ->
  label <> bs "self" -> kpresent s label -> wFate w = WPartial 0 :: fates ->
  exists w', fc_main f o l w = Fail w' /\ wFs w' = <[lPath l := []]> (wFs w) /\ forall s', ~ key_file (wFs w') (lPath l) s'.
Proof.
  intros K Hc Ha N Pr Fa0. destruct (key_file_locked _ _ _ K) as (R & P & Lk & Bl).
  rewrite (main_eq f o l FRemove a s w Hc) by (try exact K; rewrite Ha; cbn; lia). cbn [needs_unlock then_ fc_run].
  assert (farg 0 (cfg_of l a) = label) as Fa by (unfold farg; cbn [fArgs cfg_of]; rewrite Ha; reflexivity).
  assert (fc_remove s (cfg_of l a) (tick (tick w)) = Done (remove_key s label) (tick (tick w))) as ->.
  { apply remove_done. rewrite Fa. split; [exact N|]. split; [|auto]. apply ks_has_iff. auto. }
  cbn [silent then_ fst snd must should_write orb]. rewrite finish_writes by (apply no_priv; exact P).
  unfold w_raw_write. destruct (decide (lPath l = [])) as [X|_]; [destruct K; contradiction|]. cbn [tick wFate]. rewrite Fa0. cbn [write_file take].
  eexists. split; [reflexivity|]. cbn [wFs tick]. split; [reflexivity|]. intros s' (_ & _ & Ld & _). specialize (Ld true 0 0 []).
  unfold load_kstore, read_file in Ld. rewrite lookup_insert in Ld. discriminate Ld.
Qed.

(** *** Importing *)
Lemma ask_label_cases c w label w' : ask_label c w = (Some label, w') ->
  fLabel c <> bs "self" /\ label = fLabel c /\ w' = w \/
  fLabel c = bs "self" /\ read_line (wIn w) = (Some label, wIn w') /\ wPw w' = wPw w /\ wClk w' = wClk w /\ wFs w' = wFs w.
Proof.
  unfold ask_label. destruct (decide (fLabel c = self)) as [E|E].
  - intros H. right. split; [exact E|]. pose proof (w_line_keeps _ _ _ H) as K. apply w_line_eq in H as (A & B & D & _). split; [exact A|]. split; [exact B|]. split; [exact D|apply keeps_fs, K].
  - intros [= <- <-]. left. auto.
Qed.
Lemma an_order_same s s' o : ksKeys s' = ksKeys s -> an_order s o -> an_order s' o.
Proof. unfold an_order. intros ->. auto. Qed.
Lemma kwell_same s s' : ksKeys s' = ksKeys s -> kwell s -> kwell s'.
Proof. unfold kwell. intros ->. auto. Qed.
Lemma import_key_sound o1 o2 now s l data s' : kwell s -> an_order s o1 -> an_order s o2 -> import_verified_key o1 o2 now s l data = Ret (true, s') ->
  exists v, parse_verified_key data = Some v /\ importable s l v /\ int64 (vTime v) /\
    added s l (KRec l 1 now (Some (vPublic v)) (Some (vSig v)) (Some (vSigner v)) (vTime v) None) s'.
Proof.
  intros W O1 O2 H. apply import_key_inv in H as [[[=] _]|(ty & d & Pd & -> & H)]. destruct (import_sound _ _ _ _ _ _ _ W O1 O2 H) as (v & Pv & Im & Ad).
  exists v. split; [unfold parse_verified_key; rewrite Pd; destruct (decide _); [contradiction|exact Pv]|]. split; [exact Im|]. split; [|exact Ad].
  apply parse_vkey_exact in Pv as (p & k & t & ti & sg & junk & body & rest & _ & _ & _ & _ & _ & _ & _ & I & _). exact I.
Qed.
Lemma added_same s l r s' : added s l r s' -> ksVersion s' = ksVersion s /\ ksTime s' = ksTime s /\ ksBlob s' = ksBlob s /\ ksPub s' = ksPub s /\
  ksExport s' = ksExport s /\ ksPriv s' = ksPriv s /\ ksLocked s' = ksLocked s /\ ksKeys s' <> None.
Proof. intros (m & _ & ->). cbn. repeat split. discriminate. Qed.
(** A store that was opened, changed in its keys only and written. *)
Lemma rewritten_open f path s s1 s2 t : key_file f path s -> opened s s1 ->
  ksVersion s2 = ksVersion s1 -> ksBlob s2 = ksBlob s1 -> ksPub s2 = ksPub s1 -> ksKeys s2 <> None -> good_kstore s2 -> int64 t -> t <> 0 ->
  forall f', f' !! path = Some (ks_dump (at_time s2 t)) -> key_file f' path (closed_copy (at_time s2 t)).
Proof.
  intros K O E1 E2 E3 E4 G I Z f' F. destruct (key_file_locked _ _ _ K) as ((R1 & _ & _) & P & Lk & Bl).
  destruct O as (A1 & A2 & A3 & A4 & A5 & A6 & A7 & k & A8 & A9). apply rewritten; auto.
  - apply K.
  - split; [cbn; congruence|]. split; [exact Z|exact E4].
  - cbn. congruence.
  - unfold owner. cbn. rewrite E3. eapply owns_length, A9.
  - apply good_time; assumption.
Qed.
Lemma main_done_must f o l k a s w rep w' : chosen l = Some (k, a) -> (required_argc k <= length (lArgs l))%nat -> key_file (wFs w) (lPath l) s ->
  needs_unlock k = true -> fc_main f o l w = Done rep w' ->
  exists pass s1 w1 s2 w2, wPw w = Some pass :: wPw w1 /\ ks_unlock (nth 2 (wClk w) 0) s pass = Ret (true, s1) /\ opened s s1 /\
    wFs w1 = wFs w /\ wIn w1 = wIn w /\ wClk w1 = drop 3 (wClk w) /\ wRng w1 = wRng w /\ wOut w1 = wOut w /\ keeps w w1 /\
    fc_run f o k s1 (cfg_of l a) w1 = Done (s2, rep) w2 /\
    (must k s = false -> w' = w2) /\
    (must k s = true -> wFs w' = <[lPath l := ks_dump (at_time s2 (clock w2))]> (wFs w2) /\ wPw w' = wPw w2 /\ wIn w' = wIn w2 /\ wOut w' = wOut w2).
Proof.
  intros Hc Ha K Hn H. destruct (main_cases f o l k a s w Hc Ha K) as [(wx & _ & [E|E])|(s1 & w1 & B & K1 & G & Ek & Hh & X)].
  1,2: rewrite E in H; discriminate H.
  destruct X as [(wx & _ & E)|[(wx & _ & E)|[[_ E]|(s2 & rep2 & w2 & R & T & _ & Q & M)]]].
  1,2,3: rewrite E in H; discriminate H.
  unfold begin_ in B. rewrite Hn in B. destruct (key_file_locked _ _ _ K) as (_ & _ & Lk & _).
  destruct (fc_unlock_inv _ _ _ _ Lk B) as (pass & E1 & E2 & E3 & E4 & E5 & E6 & E7 & E8 & E9). rewrite clock_tick2 in E2.
  exists pass, s1, w1, s2, w2. split; [exact E1|]. split; [exact E2|]. split; [exact E3|]. split; [exact E4|]. split; [exact E5|].
  split; [rewrite E6; cbn [tick wClk]; rewrite !drop_drop; reflexivity|]. split; [exact E7|]. split; [exact E9|]. split; [exact K1|].
  destruct (must k s) eqn:Em.
  - rewrite (M eq_refl) in H. destruct (w_raw_write _ _ _) as [[] w3] eqn:W; [|discriminate H]. injection H as <- <-. split; [exact R|]. split; [discriminate|]. intros _.
    apply raw_write_true in W as (W1 & W2 & W3 & W4). auto.
  - rewrite (Q eq_refl) in H. injection H as <- <-. split; [exact R|]. split; [auto|discriminate].
Qed.
Lemma read_rest w w1 p r w2 : w_read w1 p = (r, w2) -> wFs w1 = wFs w -> wIn w1 = wIn w -> wIn w2 = wIn (snd (w_read w p)).
Proof.
  unfold w_read, w_raw_read. intros H Ef Ei. rewrite Ef, Ei in H. destruct (decide _).
  - destruct (read_all (wIn w)). injection H as _ <-. reflexivity.
  - injection H as _ <-. exact Ei.
Qed.
Lemma fcr_importing f o l a s w rep w' : key_file (wFs w) (lPath l) s -> kwell s -> an_order s (foOne o) -> an_order s (foTwo o) ->
  chosen l = Some (FImport, a) -> lArgs l <> [] -> fc_main f o l w = Done rep w' ->
  exists pass s1 data label v s2 t n who, wPw w = Some pass :: wPw w' /\ ks_unlock (nth 2 (wClk w) 0) s pass = Ret (true, s1) /\ opened s s1 /\
    fst (w_read w (nth 0 (lArgs l) [])) = Some data /\ parse_verified_key data = Some v /\
    (lLabel l <> bs "self" /\ label = lLabel l \/ lLabel l = bs "self" /\ exists i, read_line (wIn (snd (w_read w (nth 0 (lArgs l) [])))) = (Some label, i)) /\
    wOut w' = wOut w ++ bs "Imported public key signed by '" ++ who ++ bs "'." ++ [x0a] /\
    (an_order s2 (foThree o) -> vSigner v = owner s2 /\ who = bs "self" \/ vSigner v <> owner s2 /\ exists k y, krecord s2 k y /\ subject y = vSigner v /\ krLabel y = who) /\
    importable s1 label v /\ added s1 label (KRec label 1 n (Some (vPublic v)) (Some (vSig v)) (Some (vSigner v)) (vTime v) None) s2 /\
    wFs w' = <[lPath l := ks_dump (at_time s2 t)]> (wFs w) /\ t = nth 4 (wClk w) 0 /\
    (good_clock w -> t <> 0 -> utf8_text label -> key_file (wFs w') (lPath l) (closed_copy (at_time s2 t))).
Proof.
  intros K W O1 O2 Hc Ha H. destruct (main_done_must f o l FImport a s w rep w' Hc) as (pass & s1 & w1 & s2 & w2 & E1 & E2 & Op & E3 & E4 & E5 & E6 & E7 & Kw & R & _ & M);
    [destruct (lArgs l); [contradiction|cbn; lia]|exact K|reflexivity|exact H|]. destruct (M eq_refl) as (M1 & M2 & M3 & M4).
  cbn [fc_run] in R. apply silent_done in R as [R ->]. destruct (import_done _ _ _ _ _ _ R) as (data & wa & label & wb & v & who & Ra & Rb & Rc & Rd & Re & ->).
  assert (ksKeys s1 = ksKeys s) as Ek by apply Op.
  destruct (import_key_sound _ _ _ _ _ _ _ (kwell_same _ _ Ek W) (an_order_same _ _ _ Ek O1) (an_order_same _ _ _ Ek O2) Rc) as (v' & Pv & Im & Iv & Ad).
  assert (v' = v) as -> by congruence.
  destruct (read_eq _ _ _ _ Ra) as (C1 & P1 & Oa & _). pose proof (w_read_keeps _ _ _ _ Ra) as Ka.
  assert (wClk wb = wClk wa /\ wPw wb = wPw wa /\ wFs wb = wFs wa) as (Cb & Pb & Fb).
  { destruct (ask_label_cases _ _ _ _ Rb) as [(_ & _ & ->)|(_ & _ & B1 & B2 & B3)]; auto. }
  assert (clock (w_print (tick wb) (bs "Imported public key signed by '" ++ who ++ bs "'." ++ [x0a])) = nth 4 (wClk w) 0) as Ct.
  { unfold clock, w_print, tick. cbn [wClk]. rewrite Cb, C1, E5. destruct (wClk w) as [|? [|? [|? [|? [|? ?]]]]]; reflexivity. }
  exists pass, s1, data, label, v, s2, (nth 4 (wClk w) 0), (clock wb), who. split; [rewrite E1, M2; cbn [w_print tick wPw]; congruence|].
  split; [exact E2|]. split; [exact Op|]. split.
  { clear - Ra E3 E4. unfold farg in Ra. cbn [fArgs cfg_of] in Ra. unfold w_read, w_raw_read in *. rewrite E3, E4 in Ra. destruct (decide _).
    - destruct (read_all (wIn w)). injection Ra as <- _. reflexivity.
    - injection Ra as -> _. reflexivity. }
  split; [exact Rd|]. pose proof (read_rest w _ _ _ _ Ra E3 E4) as Ri. unfold farg in Ri. cbn [fArgs cfg_of] in Ri.
  split; [destruct (ask_label_cases _ _ _ _ Rb) as [(N & -> & _)|(X & Y & _)]; [left; auto|right; split; [exact X|rewrite <- Ri; eauto]]|].
  assert (wOut wb = wOut wa) as Ob.
  { unfold ask_label in Rb. destruct (decide _); [|now injection Rb as _ <-]. apply w_line_eq in Rb as (_ & _ & _ & _ & X). exact X. }
  split; [rewrite M4; cbn [w_print tick wOut]; congruence|]. split.
  { intros O3. unfold find_public in Re. rewrite obytes_octets in Re. fold (owner s2) in Re. destruct (decide (vSigner v = owner s2)) as [E|E]; [injection Re as <-; left; auto|].
    right. split; [exact E|]. eapply find_loop_record; eauto. }
  split; [exact Im|]. split; [exact Ad|]. rewrite Ct in M1. cbn [w_print tick wFs] in M1. rewrite Fb, (keeps_fs _ _ Ka), E3 in M1. split; [exact M1|]. split; [reflexivity|].
  intros Gc Z Tl. destruct (added_same _ _ _ _ Ad) as (A1 & A2 & A3 & A4 & A5 & A6 & A7 & A8).
  assert (forall i, int64 (nth i (wClk w) 0)) as In.
  { intros i. unfold good_clock in Gc. rewrite Forall_lookup in Gc. destruct (wClk w !! i) eqn:Ei; [erewrite nth_lookup_Some by exact Ei; eauto|].
    rewrite nth_lookup, Ei. apply int64_0. }
  assert (int64 (clock wb)) as Ib by (unfold clock; rewrite Cb, C1, E5; rewrite nth_lookup, lookup_drop, <- nth_lookup; apply In).
  eapply rewritten_open; try exact K; try exact Op; try assumption; try (apply In).
  - eapply good_added; [exact Ad|eapply opened_good; [exact Op|eapply key_file_good, K]|exact Tl|]. split; [cbn; split; [|split]; auto; unfold int64; lia|]. split; [exact Tl|discriminate].
  - rewrite M1. apply lookup_insert.
Qed.

(** With enough said, it succeeds. *)
Lemma find_total_added s l r s' o v : kwell s -> l <> bs "self" -> added s l r s' -> krLabel r = l -> an_order s' o ->
  (vSigner v = owner s \/ exists l' r', krecord s l' r' /\ subject r' = vSigner v) -> ~ kpresent s l ->
  exists who, find_public o s' (vSigner v) = Ret (Some who).
Proof.
  intros W N Ad Lb Or Si Np. pose proof (added_kwell _ _ _ _ Ad N Lb W) as W'. destruct (added_same _ _ _ _ Ad) as (_ & _ & _ & Ep & _).
  unfold find_public. rewrite obytes_octets. fold (owner s'). assert (owner s' = owner s) as -> by (unfold owner; congruence).
  destruct (decide (vSigner v = owner s)) as [|Nq]; [eauto|]. destruct Si as [Si|(l' & r' & Kr & Es)]; [contradiction|].
  destruct (find_loop_total o (vSigner v)) as [x E].
  { intros k x Hk. destruct Or as (m & Em & Pm). rewrite Pm in Hk. apply elem_of_map_to_list in Hk. destruct (W' m k x Em Hk) as (_ & r0 & -> & _). discriminate. }
  destruct x as [x|]; [eauto|]. exfalso. assert (krecord s' l' r') as Kr'.
  { apply (added_record _ _ _ _ _ _ Ad). right. split; [|exact Kr]. intros ->. apply Np. destruct Kr as (m & Em & Hm). exists m. eauto. }
  apply (an_order_in s' o l' r' Or) in Kr'. destruct (find_loop_none _ _ E _ _ Kr') as (r0 & [= <-] & Nx). contradiction.
Qed.
Lemma import_key_certain o1 o2 now s l data v : kwell s -> distinct_keys s -> an_order s o1 -> an_order s o2 ->
  parse_verified_key data = Some v -> importable s l v -> exists s', import_verified_key o1 o2 now s l data = Ret (true, s').
Proof.
  intros W Di O1 O2 P Im. unfold parse_verified_key in P. unfold import_verified_key. destruct (pem_decode data) as [[ty b]|]; [|discriminate].
  destruct (decide (ty <> VerifiedKeyType)); [discriminate|]. eapply import_certain; eauto.
Qed.
Lemma main_opened f o l k a s w pass ps s1 : chosen l = Some (k, a) -> (required_argc k <= length (lArgs l))%nat -> key_file (wFs w) (lPath l) s ->
  needs_unlock k = true -> wPw w = Some pass :: ps -> ks_unlock (nth 2 (wClk w) 0) s pass = Ret (true, s1) ->
  let w1 := World (wFs w) (wIn w) ps (drop 3 (wClk w)) (wRng w) (wFate w) (wOut w) in
  opened s s1 /\ keeps w w1 /\
  fc_main f o l w = let* (r, w2) := fc_run f o k s1 (cfg_of l a) w1 in finish l k (must k s) (fst r) (snd r) w2.
Proof.
  intros Hc Ha K Hn Hp U w1. destruct (key_file_locked _ _ _ K) as (_ & _ & Lk & _).
  assert (fc_unlock s (tick (tick w)) = Done s1 w1) as E.
  { rewrite (fc_unlock_ok s (tick (tick w)) pass ps s1 Lk Hp) by (rewrite clock_tick2; exact U). cbn [tick wFs wIn wClk wRng wFate wOut]. unfold w1. rewrite !drop_drop. reflexivity. }
  destruct (fc_unlock_inv _ _ _ _ Lk E) as (p & _ & _ & Op & _). split; [exact Op|]. split.
  { eapply keeps_trans; [apply tick2_keeps|]. pose proof (fc_unlock_frame s (tick (tick w))) as Fr. apply Fr. rewrite E. reflexivity. }
  rewrite (main_eq f o l k a s w Hc Ha K), Hn, E. reflexivity.
Qed.
Lemma fcr_import_certain f o l a s w pass ps s1 p data v rest : key_file (wFs w) (lPath l) s -> kwell s -> chosen l = Some (FImport, a) ->
  lArgs l = p :: rest -> plain_path p -> wFs w !! p = Some data -> parse_verified_key data = Some v -> lLabel l <> bs "self" ->
  wPw w = Some pass :: ps -> ks_unlock (nth 2 (wClk w) 0) s pass = Ret (true, s1) -> distinct_keys s1 -> importable s1 (lLabel l) v ->
  an_order s (foOne o) -> an_order s (foTwo o) -> (forall r s2, added s1 (lLabel l) r s2 -> an_order s2 (foThree o)) -> disk_ok w ->
  exists w', fc_main f o l w = Done RNone w'.
Proof.
  intros K W Hc Ha Pp F Pv Nl Hp U Di Im O1 O2 O3 D. destruct (main_opened f o l FImport a s w pass ps s1 Hc) as (Op & Kw & ->);
    [rewrite Ha; cbn; lia|exact K|reflexivity|exact Hp|exact U|]. set (w1 := World _ _ _ _ _ _ _) in *. cbn [fc_run].
  assert (ksKeys s1 = ksKeys s) as Ek by apply Op. pose proof (kwell_same _ _ Ek W) as W1.
  pose proof (an_order_same _ _ _ Ek O1) as O1'. pose proof (an_order_same _ _ _ Ek O2) as O2'.
  assert (exists s2 w2, fc_import o s1 (cfg_of l a) w1 = Done s2 w2 /\ keeps w1 w2 /\ ksPriv s2 = ksPriv s1) as (s2 & w2 & E & K2 & P2).
  { destruct (import_key_certain (foOne o) (foTwo o) (clock w1) s1 (lLabel l) data v W1 Di O1' O2' Pv Im) as (s2 & E2).
    destruct (import_key_sound _ _ _ _ _ _ _ W1 O1' O2' E2) as (v' & Pv' & _ & _ & Ad). assert (v' = v) as -> by congruence.
    destruct Im as (_ & _ & Np & _ & Si).
    destruct (find_total_added s1 (lLabel l) _ s2 (foThree o) v W1 Nl Ad eq_refl (O3 _ _ Ad)) as (who & Ew); [destruct Si as [|(_ & l' & r' & A & B & _)]; eauto|exact Np|].
    unfold fc_import. unfold farg at 1. cbn [fArgs cfg_of]. rewrite Ha. cbn [nth]. rewrite (w_read_plain w1 p Pp). change (wFs w1) with (wFs w). rewrite F.
    unfold ask_label. cbn [fLabel cfg_of]. change self with (bs "self"). destruct (decide (lLabel l = bs "self")); [contradiction|]. rewrite w_now_tick, E2. cbn [lift then_ negb]. rewrite Pv, Ew. cbn [lift then_].
    do 2 eexists. split; [reflexivity|]. split; [eapply keeps_trans; [apply tick_keeps|apply w_print_keeps]|]. eapply import_priv, E2. }
  rewrite E. cbn [silent then_ fst snd must should_write orb]. rewrite finish_writes; [|intros x X; apply (opened_go _ _ Op); congruence].
  destruct (w_raw_write _ _ _) as [ok w'] eqn:Wr. apply raw_write_disk in Wr as (-> & _); [eauto| |apply K].
  eapply keeps_disk; [|exact D]. eapply keeps_trans; [exact Kw|]. eapply keeps_trans; [exact K2|apply tick_keeps].
Qed.

(** *** Importing without trust *)
Lemma ask_sure_fs f : forall w x w', ask_sure f w = Done x w' -> wFs w' = wFs w /\ wPw w' = wPw w /\ wClk w' = wClk w /\ wOut w' = wOut w.
Proof.
  induction f as [|f IH]; intros w x w'; [discriminate|]. cbn [ask_sure]. destruct (w_line w) as [[line|] w1] eqn:E; pose proof (keeps_fs _ _ (w_line_keeps _ _ _ E)) as F;
    apply w_line_eq in E as (_ & A & B & _ & D); [|intros [= _ <-]; auto]. destruct (decide _); [intros [= _ <-]; auto|]. destruct (decide _); [intros [= _ <-]; auto|].
  intros H. apply IH in H as (X & Y & Z & V). split; [congruence|]. split; [congruence|]. split; congruence.
Qed.
Lemma read_from w w1 p data w2 : w_read w1 p = (Some data, w2) -> wFs w1 = wFs w -> wIn w1 = wIn w -> fst (w_read w p) = Some data.
Proof.
  unfold w_read, w_raw_read. intros H Ef Ei. rewrite Ef, Ei in H. destruct (decide _).
  - destruct (read_all (wIn w)). injection H as <- _. reflexivity.
  - injection H as -> _. reflexivity.
Qed.
Lemma ask_label_eq c w label w' : ask_label c w = (Some label, w') -> wClk w' = wClk w /\ wPw w' = wPw w /\ wFs w' = wFs w.
Proof. intros H. destruct (ask_label_cases _ _ _ _ H) as [(_ & _ & ->)|(_ & _ & B1 & B2 & B3)]; auto. Qed.
Lemma ask_sure_said f : forall w x w', ask_sure f w = Done x w' ->
  exists ls, Forall (fun y => y <> bs "yes" /\ y <> bs "no") ls /\
    match x with
    | None => exists i, hears (wIn w) ls i /\ read_line i = (None, wIn w')
    | Some b => hears (wIn w) (ls ++ [if b then bs "yes" else bs "no"]) (wIn w')
    end.
Proof.
  induction f as [|f IH]; intros w x w'; [discriminate|]. cbn [ask_sure]. destruct (w_line w) as [[line|] w1] eqn:E; unfold w_line in E;
    destruct (read_line (wIn w)) as [r i] eqn:Rl; injection E as -> <-.
  - destruct (decide (line = bs "yes")) as [->|N1]; [|destruct (decide (line = bs "no")) as [->|N2]].
    + intros [= <- <-]. exists []. split; [constructor|]. cbn. econstructor; [exact Rl|constructor].
    + intros [= <- <-]. exists []. split; [constructor|]. cbn. econstructor; [exact Rl|constructor].
    + intros H. apply IH in H as (ls & Fo & H). cbn [wIn] in H. exists (line :: ls). split; [constructor; auto|].
      destruct x as [b|]; [cbn [app]; econstructor; eauto|]. destruct H as (i' & H & H'). exists i'. split; [econstructor; eauto|exact H'].
  - intros [= <- <-]. exists []. split; [constructor|]. exists (wIn w). split; [constructor|]. exact Rl.
Qed.
Lemma fcr_uimporting f o l a s w rep w' : key_file (wFs w) (lPath l) s -> chosen l = Some (FUImport, a) -> lArgs l <> [] -> fc_main f o l w = Done rep w' ->
  exists pass s1 data v s2 t pre ls, let i := wIn (snd (w_read w (nth 0 (lArgs l) []))) in
    wPw w = Some pass :: wPw w' /\ ks_unlock (nth 2 (wClk w) 0) s pass = Ret (true, s1) /\ opened s s1 /\
    fst (w_read w (nth 0 (lArgs l) [])) = Some data /\ parse_verified_key data = Some v /\
    wOut w' = wOut w ++ pre ++ bs "Fingerprint: " ++ hex_encode (sha256 (vPublic v)) ++ [x0a] /\
    wFs w' = <[lPath l := ks_dump (at_time s2 t)]> (wFs w) /\ Forall (fun y => y <> bs "yes" /\ y <> bs "no") ls /\
    (s2 = s1 /\ (exists i1 i2, hears i ls i1 /\ read_line i1 = (None, i2)) \/
     exists label sig n1 n2 i1, hears i (ls ++ [bs "yes"]) i1 /\ label <> bs "self" /\
       (lLabel l <> bs "self" /\ label = lLabel l \/ lLabel l = bs "self" /\ exists i2, read_line i1 = (Some label, i2)) /\
       ~ kpresent s1 label /\ length (vPublic v) = 64%nat /\ certified (vPublic v) (owner s1) n1 sig /\
       added s1 label (KRec label 0 n2 (Some (vPublic v)) (Some sig) (ksPub s1) n1 (Some ∅)) s2).
Proof.
  intros K Hc Ha H. destruct (main_done_must f o l FUImport a s w rep w' Hc) as (pass & s1 & w1 & s2 & w2 & E1 & E2 & Op & E3 & E4 & E5 & E6 & E7 & Kw & R & _ & M);
    [destruct (lArgs l); [contradiction|cbn; lia]|exact K|reflexivity|exact H|]. destruct (M eq_refl) as (M1 & M2 & M3 & M4).
  cbn [fc_run] in R. apply silent_done in R as [R ->]. destruct (uimport_done _ _ _ _ _ _ R) as (data & wa & v & own & wb & sure & Ra & Rb & Rc & Rd & Re).
  destruct (read_eq _ _ _ _ Ra) as (C1 & P1 & O1 & _). pose proof (keeps_fs _ _ (w_read_keeps _ _ _ _ Ra)) as Fa.
  destruct (ask_sure_fs _ _ _ _ Rd) as (Fb & Pb & _ & Ob). cbn [w_print wFs wPw wOut] in Fb, Pb, Ob.
  destruct (ask_sure_said _ _ _ _ Rd) as (ls & Fo & Sa). cbn [w_print wIn] in Sa. rewrite (read_rest w _ _ _ _ Ra E3 E4) in Sa. unfold farg in Sa. cbn [fArgs cfg_of] in Sa.
  exists pass, s1, data, v, s2, (clock w2), ((if own then bs "Key is self-signed." else bs "Unrecognised signature.") ++ [x0a]), ls. cbv zeta.
  assert (Ot : wOut w ++ uimport_text own v = wOut w ++ ((if own then bs "Key is self-signed." else bs "Unrecognised signature.") ++ [x0a]) ++ bs "Fingerprint: " ++ hex_encode (sha256 (vPublic v)) ++ [x0a])
    by (unfold uimport_text, fingerprint_line; rewrite <- !app_assoc; reflexivity).
  destruct Re as [(-> & -> & ->)|(-> & label & w3 & Rl & Ad & ->)].
  - split; [congruence|]. split; [exact E2|]. split; [exact Op|]. split; [eapply read_from; eauto|]. split; [exact Rb|].
    split; [rewrite <- Ot; congruence|]. split; [rewrite M1; congruence|]. split; [exact Fo|]. left. split; [reflexivity|]. destruct Sa as (i1 & S1 & S2). eauto.
  - destruct (ask_label_eq _ _ _ _ Rl) as (_ & P3 & F3). split; [cbn [tick wPw] in M2; congruence|]. split; [exact E2|]. split; [exact Op|]. split; [eapply read_from; eauto|]. split; [exact Rb|].
    assert (O3 : wOut w3 = wOut wb).
    { unfold ask_label in Rl. destruct (decide _); [|now injection Rl as _ <-]. apply w_line_eq in Rl as (_ & _ & _ & _ & X). exact X. }
    split; [cbn [tick wOut] in M4; rewrite <- Ot; congruence|].
    split; [rewrite M1; cbn [tick wFs]; congruence|]. split; [exact Fo|]. right.
    apply add_inv in Ad as [[[=] _]|(_ & Rd' & Nl & Np & _ & Lp & k & p & sig & Ek & Ep & _ & Ve & _ & Ad)].
    exists label, sig, (clock w3), (clock (tick w3)), (wIn wb). split; [exact Sa|]. split; [exact Nl|].
    split; [destruct (ask_label_cases _ _ _ _ Rl) as [(N & -> & _)|(X & Y & _)]; [left; auto|right; split; [exact X|eauto]]|].
    split; [exact Np|]. split; [exact Lp|]. split; [|exact Ad].
    destruct Op as (_ & _ & _ & _ & _ & _ & _ & k' & Ek' & Ow). assert (k' = k) as -> by congruence.
    pose proof (owns_verify s1 k p _ sig Ow Ep Ve) as Ch. exact Ch.
Qed.
(** The end of the input is taken for success, but nothing is imported. *)
Lemma ask_sure_eof f w i : read_line (wIn w) = (None, i) -> exists w', ask_sure (S f) w = Done None w' /\ wFs w' = wFs w /\ wFate w' = wFate w /\ wClk w' = wClk w /\ wPw w' = wPw w.
Proof. intros E. cbn [ask_sure]. unfold w_line. rewrite E. eexists. split; [reflexivity|]. cbn. auto. Qed.
Lemma ask_sure_no f : forall ls w i, hears (wIn w) (ls ++ [bs "no"]) i -> Forall (fun x => x <> bs "yes" /\ x <> bs "no") ls -> (length ls < f)%nat ->
  exists w', ask_sure f w = Done (Some false) w'.
Proof.
  induction f as [|f IH]; intros ls w i H Fo Hl; [lia|]. cbn [ask_sure]. unfold w_line. destruct ls as [|x ls]; cbn [app] in H; inversion H as [|? ? i1 ? ? E H2]; subst; rewrite E.
  - destruct (decide (bs "no" = bs "yes")) as [X|_]; [discriminate X|]. destruct (decide (bs "no" = bs "no")); [eauto|contradiction].
  - inversion Fo as [|? ? [N1 N2] Fo']; subst. destruct (decide _); [contradiction|]. destruct (decide _); [contradiction|]. cbn [length] in Hl. eapply IH; [|exact Fo'|lia]. cbn. exact H2.
Qed.
Lemma ask_sure_yes f : forall ls w i, hears (wIn w) (ls ++ [bs "yes"]) i -> Forall (fun x => x <> bs "yes" /\ x <> bs "no") ls -> (length ls < f)%nat ->
  exists w', ask_sure f w = Done (Some true) w' /\ wIn w' = i.
Proof.
  induction f as [|f IH]; intros ls w i H Fo Hl; [lia|]. cbn [ask_sure]. unfold w_line. destruct ls as [|x ls]; cbn [app] in H; inversion H as [|? ? i1 ? ? E H2]; subst; rewrite E.
  - destruct (decide (bs "yes" = bs "yes")); [|contradiction]. inversion H2; subst. eauto.
  - inversion Fo as [|? ? [N1 N2] Fo']; subst. destruct (decide _); [contradiction|]. destruct (decide _); [contradiction|]. cbn [length] in Hl. eapply IH; [|exact Fo'|lia]. cbn. exact H2.
Qed.
Lemma is_self_signed_total v : exists b, is_self_signed v = Ret b.
Proof. unfold is_self_signed. destruct (decide _); [eauto|]. rewrite check_key. eauto. Qed.
Lemma fcr_silence f o l a s w pass ps s1 p data v rest i : key_file (wFs w) (lPath l) s -> chosen l = Some (FUImport, a) ->
  lArgs l = p :: rest -> plain_path p -> wFs w !! p = Some data -> parse_verified_key data = Some v ->
  wPw w = Some pass :: ps -> ks_unlock (nth 2 (wClk w) 0) s pass = Ret (true, s1) -> disk_ok w -> read_line (wIn w) = (None, i) ->
  exists w', fc_main (S f) o l w = Done RNone w' /\ wFs w' = <[lPath l := ks_dump (at_time s1 (nth 3 (wClk w) 0))]> (wFs w).
Proof.
  intros K Hc Ha Pp F Pv Hp U D Rl. destruct (main_opened (S f) o l FUImport a s w pass ps s1 Hc) as (Op & Kw & ->);
    [rewrite Ha; cbn; lia|exact K|reflexivity|exact Hp|exact U|]. set (w1 := World _ _ _ _ _ _ _) in *. cbn [fc_run].
  destruct (is_self_signed_total v) as [own Eo].
  assert (exists w2, fc_uimport (S f) s1 (cfg_of l a) w1 = Done s1 w2 /\ wFs w2 = wFs w1 /\ wFate w2 = wFate w1 /\ wClk w2 = wClk w1) as (w2 & E & A1 & A2 & A3).
  { unfold fc_uimport. unfold farg at 1. cbn [fArgs cfg_of]. rewrite Ha. cbn [nth]. rewrite (w_read_plain w1 p Pp). change (wFs w1) with (wFs w). rewrite F, Pv, Eo. cbn [lift then_]. cbv zeta.
    fold (uimport_text own v). destruct (ask_sure_eof f (w_print w1 (uimport_text own v)) i Rl) as (w2 & -> & B1 & B2 & B3 & _). cbn [then_]. exists w2. split; [reflexivity|]. auto. }
  rewrite E. cbn [silent then_ fst snd must should_write orb]. rewrite finish_writes by (eapply opened_go, Op).
  destruct (w_raw_write _ _ _) as [ok w'] eqn:Wr. apply raw_write_disk in Wr as (-> & Ew & _); [| |apply K].
  - exists w'. split; [reflexivity|]. rewrite Ew. cbn [tick wFs]. rewrite A1. unfold clock. rewrite A3. unfold w1. cbn [wClk wFs]. rewrite nth_lookup, lookup_drop, <- nth_lookup. reflexivity.
  - unfold disk_ok. cbn [tick wFate]. rewrite A2. exact D.
Qed.
Lemma fcr_refused f o l a s w pass ps s1 p data v rest ls i : key_file (wFs w) (lPath l) s -> chosen l = Some (FUImport, a) ->
  lArgs l = p :: rest -> plain_path p -> wFs w !! p = Some data -> parse_verified_key data = Some v ->
  wPw w = Some pass :: ps -> ks_unlock (nth 2 (wClk w) 0) s pass = Ret (true, s1) -> disk_ok w ->
  hears (wIn w) (ls ++ [bs "no"]) i -> Forall (fun x => x <> bs "yes" /\ x <> bs "no") ls -> (length ls < f)%nat ->
  exists w', fc_main f o l w = Fail w' /\ wFs w' = wFs w.
Proof.
  intros K Hc Ha Pp F Pv Hp U D He Fo Hl. assert (exists w', fc_main f o l w = Fail w') as (w' & E).
  2:{ exists w'. split; [exact E|]. eapply fcr_failing; eauto. }
  destruct (main_opened f o l FUImport a s w pass ps s1 Hc) as (Op & Kw & ->);
    [rewrite Ha; cbn; lia|exact K|reflexivity|exact Hp|exact U|]. set (w1 := World _ _ _ _ _ _ _) in *. cbn [fc_run].
  destruct (is_self_signed_total v) as [own Eo]. unfold fc_uimport. unfold farg at 1. cbn [fArgs cfg_of]. rewrite Ha. cbn [nth]. rewrite (w_read_plain w1 p Pp). change (wFs w1) with (wFs w).
  rewrite F, Pv, Eo. cbn [lift then_]. cbv zeta. fold (uimport_text own v).
  destruct (ask_sure_no f ls (w_print w1 (uimport_text own v)) i He Fo Hl) as (w2 & ->). cbn [then_ silent]. eauto.
Qed.

Lemma ask_sure_keeps f : forall w x w', ask_sure f w = Done x w' -> keeps w w'.
Proof.
  induction f as [|f IH]; intros w x w'; [discriminate|]. cbn [ask_sure]. destruct (w_line w) as [[line|] w1] eqn:E; apply w_line_keeps in E; [|intros [= _ <-]; exact E].
  destruct (decide _); [intros [= _ <-]; exact E|]. destruct (decide _); [intros [= _ <-]; exact E|]. intros H. eapply keeps_trans; [exact E|eapply IH, H].
Qed.
Lemma fcr_agreed f o l a s w pass ps s1 p data v rest ls i label d seed : key_file (wFs w) (lPath l) s -> chosen l = Some (FUImport, a) ->
  lArgs l = p :: rest -> plain_path p -> wFs w !! p = Some data -> parse_verified_key data = Some v ->
  wPw w = Some pass :: ps -> ks_unlock (nth 2 (wClk w) 0) s pass = Ret (true, s1) -> ksPriv s1 = Some (keypair d seed) -> length seed = 32%nat -> disk_ok w ->
  hears (wIn w) (ls ++ [bs "yes"]) i -> Forall (fun x => x <> bs "yes" /\ x <> bs "no") ls -> (length ls < f)%nat ->
  (lLabel l <> bs "self" /\ label = lLabel l \/ lLabel l = bs "self" /\ exists i2, read_line i = (Some label, i2)) ->
  label <> bs "self" -> ~ kpresent s1 label -> length (vPublic v) = 64%nat ->
  exists w' s2 r, fc_main f o l w = Done RNone w' /\ added s1 label r s2 /\ subject r = vPublic v /\ signer r = owner s1 /\
    wFs w' = <[lPath l := ks_dump (at_time s2 (nth 5 (wClk w) 0))]> (wFs w).
Proof.
  intros K Hc Ha Pp F Pv Hp U Pk Hs D He Fo Hl La Nl Np Lv.
  destruct (main_opened f o l FUImport a s w pass ps s1 Hc) as (Op & Kw & ->);
    [rewrite Ha; cbn; lia|exact K|reflexivity|exact Hp|exact U|]. set (w1 := World _ _ _ _ _ _ _) in *. cbn [fc_run].
  destruct (is_self_signed_total v) as [own Eo]. destruct (key_file_locked _ _ _ K) as ((R1 & R2 & R3) & _).
  assert (ready s1) as Rd by (destruct Op as (A & B & Ek & _); split; [congruence|split; congruence]).
  assert (ksLocked s1 = false) as Lk by apply Op.
  assert (exists s2 r w2, fc_uimport f s1 (cfg_of l a) w1 = Done s2 w2 /\ keeps w1 w2 /\ wClk w2 = drop 2 (wClk w1) /\
    added s1 label r s2 /\ subject r = vPublic v /\ signer r = owner s1 /\ ksPriv s2 = ksPriv s1) as (s2 & r & w2 & E & K2 & C2 & Ad & Su & Si & P2).
  { unfold fc_uimport. unfold farg at 1. cbn [fArgs cfg_of]. rewrite Ha. cbn [nth]. rewrite (w_read_plain w1 p Pp). change (wFs w1) with (wFs w).
    rewrite F, Pv, Eo. cbn [lift then_]. cbv zeta. fold (uimport_text own v).
    destruct (ask_sure_yes f ls (w_print w1 (uimport_text own v)) i He Fo Hl) as (w2 & E & Ei). rewrite E. cbn [then_].
    pose proof (ask_sure_keeps _ _ _ _ E) as Ka. destruct (ask_sure_fs _ _ _ _ E) as (_ & _ & Ca & _). cbn [w_print wClk] in Ca.
    assert (exists w3, ask_label (cfg_of l a) w2 = (Some label, w3) /\ keeps w2 w3 /\ wClk w3 = wClk w2) as (w3 & El & K3 & C3).
    { unfold ask_label. cbn [fLabel cfg_of]. change self with (bs "self"). destruct La as [[N ->]|[E0 (i2 & Er)]].
      - rewrite decide_False by exact N. exists w2. split; [reflexivity|]. split; [apply keeps_refl|reflexivity].
      - rewrite decide_True by exact E0. destruct (w_line w2) as [x w3] eqn:Ew. pose proof (w_line_keeps _ _ _ Ew) as Kl.
        apply w_line_eq in Ew as (Er' & _ & Cl & _). rewrite Ei, Er in Er'. injection Er' as <- _. eauto. }
    rewrite El, !w_now_tick. destruct (add_keypair (clock w3) (clock (tick w3)) s1 label (vPublic v) None d seed Rd Lk Pk Hs Nl Np Lv) as (s2 & Ea & Ad).
    rewrite Ea. cbn [lift then_ fst snd]. do 3 eexists. split; [reflexivity|]. split.
    { eapply keeps_trans; [apply w_print_keeps|]. eapply keeps_trans; [exact Ka|]. eapply keeps_trans; [exact K3|]. eapply keeps_trans; apply tick_keeps. }
    split; [cbn [tick wClk]; rewrite drop_drop, C3, Ca; reflexivity|]. split; [exact Ad|]. split; [reflexivity|]. split; [reflexivity|]. eapply add_priv, Ea. }
  rewrite E. cbn [silent then_ fst snd must should_write orb]. rewrite finish_writes; [|intros x X; apply (opened_go _ _ Op); congruence].
  destruct (w_raw_write _ _ _) as [ok w'] eqn:Wr. apply raw_write_disk in Wr as (-> & Ew & _); [| |apply K].
  - exists w', s2, r. split; [reflexivity|]. split; [exact Ad|]. split; [exact Su|]. split; [exact Si|]. rewrite Ew. cbn [tick wFs]. rewrite (keeps_fs _ _ K2).
    unfold clock. rewrite C2. unfold w1. cbn [wClk wFs]. rewrite drop_drop, nth_lookup, lookup_drop, <- nth_lookup. reflexivity.
  - eapply keeps_disk; [|exact D]. eapply keeps_trans; [exact Kw|]. eapply keeps_trans; [exact K2|apply tick_keeps].
Qed.

(** *** Checking *)
Lemma fcr_checking f o l a s w rep w' : key_file (wFs w) (lPath l) s -> chosen l = Some (FCheck, a) -> (forall k r, krecord s k r -> krLabel r <> bs "self") ->
  (forall i, orders s (foChains o i)) -> an_order s (foAudit o) -> fc_main f o l w = Done rep w' ->
  exists pass s1, wPw w = Some pass :: wPw w' /\ ks_unlock (nth 2 (wClk w) 0) s pass = Ret (true, s1) /\ opened s s1 /\
    (forall k, kpresent s k -> k = bs "self" \/ trusted s1 k) /\ wOut w' = wOut w /\
    (ksExport s <> None -> wFs w' = wFs w) /\
    (ksExport s = None -> wFs w' = <[lPath l := ks_dump (at_time s1 (nth 3 (wClk w) 0))]> (wFs w)).
Proof.
  intros K Hc Nl Or Oa H. destruct (main_done_must f o l FCheck a s w rep w' Hc) as (pass & s1 & w1 & s2 & w2 & E1 & E2 & Op & E3 & E4 & E5 & E6 & E7 & Kw & R & M0 & M);
    [cbn; lia|exact K|reflexivity|exact H|]. cbn [fc_run] in R. apply silent_done in R as [R ->]. assert (ksKeys s1 = ksKeys s) as Ek by apply Op.
  unfold fc_check in R. destruct (ksLocked s1); [discriminate|]. destruct (ks_valid s1) as [[]|]; cbn [lift then_ negb] in R; try discriminate R.
  destruct (key_audit (foChains o) (foRounds o) s1 (foAudit o)) as [[[]|]|] eqn:Au; cbn [lift then_] in R; try discriminate R. injection R as <- <-.
  exists pass, s1. assert (wPw w' = wPw w1 /\ wOut w' = wOut w1) as [P1 P2] by (destruct (must FCheck s); [destruct (M eq_refl) as (_ & A & _ & B); auto|rewrite (M0 eq_refl); auto]).
  split; [congruence|]. split; [exact E2|]. split; [exact Op|]. split.
  { intros k Hk. eapply (key_audit_sound (foChains o) (foRounds o) s1 (foAudit o)).
    - intros i j. eapply an_order_same; [exact Ek|apply Or].
    - intros k' r (m & Em & Hm). apply (Nl k' r). exists m. split; congruence.
    - eapply an_order_same; eauto.
    - exact Au.
    - destruct Hk as (m & v & Em & Hm). exists m, v. split; congruence. }
  split; [congruence|]. split.
  - intros N. assert (must FCheck s = false) as X by (unfold must; cbn; apply bool_decide_eq_false_2, N). rewrite (M0 X). exact E3.
  - intros N. assert (must FCheck s = true) as X by (apply must_iff; auto). destruct (M X) as (A & _). rewrite A, E3. unfold clock. rewrite E5, nth_lookup, lookup_drop, <- nth_lookup. reflexivity.
Qed.
(** A record whose signer is nowhere in the store fails every audit. *)
Lemma orphan_chain os f s l : kwell s -> orders s os -> ready s -> orphan s l -> verify_chain os f s l <> Ret (Some true).
Proof.
  intros W Or R (N & r & Kr & Ns & No). unfold verify_chain. destruct (negb (ks_quick s) || negb (ks_has s l)); [discriminate|].
  change self with (bs "self"). destruct (decide (l = bs "self")); [contradiction|]. destruct f as [|f]; [discriminate|]. cbn [chain_loop].
  rewrite (vks_signed _ _ _ _ R N Kr Ns). destruct (find_loop_total (os 0%nat) (signer r)) as [x E].
  { intros k v Hk. destruct (Or 0%nat) as (m & Em & Pm). rewrite Pm in Hk. apply elem_of_map_to_list in Hk. destruct (W m k v Em Hk) as (_ & r0 & -> & _). discriminate. }
  rewrite E. destruct x as [x|]; cbn [obind]; [|discriminate]. destruct (find_loop_record s _ _ _ (Or 0%nat) E) as (k & v & Kv & Es & _). destruct (No k v Kv Es).
Qed.
Lemma audit_all os f s : forall labels i, audit_loop os f i s labels = Ret (Some true) -> forall l v, (l, v) ∈ labels -> exists j, verify_chain (os j) f s l = Ret (Some true).
Proof.
  induction labels as [|[l0 v0] labels IH]; intros i H l v Hl; [inversion Hl|]. cbn [audit_loop] in H.
  destruct (verify_chain (os i) f s l0) as [[[]|]|] eqn:E; cbn [obind] in H; try discriminate H.
  apply elem_of_cons in Hl as [[= -> ->]|Hl]; [eauto|]. eapply IH; eauto.
Qed.
Lemma fcr_orphaned f o l a s w rep w' k : key_file (wFs w) (lPath l) s -> chosen l = Some (FCheck, a) -> kwell s -> (forall i, orders s (foChains o i)) -> an_order s (foAudit o) ->
  (forall pass n s1, ks_unlock n s pass = Ret (true, s1) -> orphan s1 k) -> fc_main f o l w <> Done rep w'.
Proof.
  intros K Hc W Or Oa Ow H. destruct (main_done_must f o l FCheck a s w rep w' Hc) as (pass & s1 & w1 & s2 & w2 & E1 & E2 & Opn & E3 & E4 & E5 & E6 & E7 & Kw & R & M0 & M);
    [cbn; lia|exact K|reflexivity|exact H|]. cbn [fc_run] in R. apply silent_done in R as [R ->]. assert (ksKeys s1 = ksKeys s) as Ek by apply Opn.
  pose proof (Ow _ _ _ E2) as Op.
  unfold fc_check in R. destruct (ksLocked s1); [discriminate|]. destruct (ks_valid s1) as [[]|]; cbn [lift then_ negb] in R; try discriminate R.
  destruct (key_audit (foChains o) (foRounds o) s1 (foAudit o)) as [[[]|]|] eqn:Au; cbn [lift then_] in R; try discriminate R.
  unfold key_audit in Au. destruct (negb (ks_quick s1)); [discriminate Au|].
  pose proof Op as (N & r & (m & Em & Hm) & Ns & No).
  assert ((k, Some r) ∈ foAudit o) as Hin by (destruct Oa as (m' & Em' & Pm); rewrite Pm; apply elem_of_map_to_list; congruence).
  destruct (audit_all _ _ _ _ _ Au _ _ Hin) as [j Ej]. revert Ej. apply orphan_chain; [| | |exact Op].
  - eapply kwell_same; eauto.
  - intros i. eapply an_order_same; [exact Ek|apply Or].
  - destruct (key_file_locked _ _ _ K) as ((R1 & R2 & R3) & _). destruct Opn as (A & B & _). split; [congruence|]. split; congruence.
Qed.
Lemma fcr_removal_orphans s label s' k r x : without s label s' -> krecord s label x -> krecord s k r -> k <> label -> k <> bs "self" -> signer r = subject x -> signer r <> owner s ->
  (forall k' y, krecord s k' y -> subject y = subject x -> k' = label) -> orphan s' k.
Proof.
  intros (m & Em & ->) (mx & Ex & Hx) (mr & Er & Hr) Nk Ns Es No Un. assert (mx = m) as -> by congruence. assert (mr = m) as -> by congruence. split; [exact Ns|]. exists r. split.
  - exists (delete label m). split; [reflexivity|]. rewrite lookup_delete_ne by auto. exact Hr.
  - split; [exact No|]. intros k' y (m' & Em' & Hy) E. injection Em' as <-. apply lookup_delete_Some in Hy as [N Hy]. apply N. symmetry. apply (Un k' y); [exists m; auto|congruence].
Qed.

(** *** Listing *)
Lemma list_loop_spec s find : kwell s -> orders s find -> forall o i, (forall kv, kv ∈ o -> exists r, snd kv = Some r) ->
  exists lines, list_loop s find i o = Ret lines /\ Forall2 (line_of s) o lines.
Proof.
  intros W Or. induction o as [|[k v] o IH]; intros i Hn; cbn [list_loop]; [exists []; auto|].
  destruct (Hn (k, v)) as [r Er]; [left|]. cbn in Er. subst v. rewrite obytes_octets. fold (signer r).
  assert (forall kv, kv ∈ find i -> snd kv <> None) as Nn.
  { intros [k' v'] Hk. destruct (Or i) as (m & Em & Pm). rewrite Pm in Hk. apply elem_of_map_to_list in Hk. destruct (W m k' v' Em Hk) as (_ & r0 & -> & _). discriminate. }
  destruct (IH (S i)) as (lines & El & Fl); [intros kv H; apply Hn; right; exact H|].
  unfold find_public. rewrite obytes_octets. fold (owner s). destruct (decide (signer r = owner s)) as [E|E].
  - cbn [obind]. rewrite El. cbn [obind]. eexists. split; [reflexivity|]. constructor; [|exact Fl]. exists r. cbn. rewrite obytes_octets. auto 8.
  - destruct (find_loop_total (find i) (signer r)) as [x Ex]; [intros k' v' H; exact (Nn (k', v') H)|]. rewrite Ex. cbn [obind]. rewrite El. cbn [obind]. eexists. split; [reflexivity|]. constructor; [|exact Fl].
    exists r. cbn. rewrite obytes_octets. split; [reflexivity|]. split; [reflexivity|]. split; [reflexivity|]. split; [reflexivity|]. split; [reflexivity|].
    destruct x as [x|]; [right; split; [exact E|eapply find_loop_record; eauto]|]. split; [exact E|]. intros k' y Ky. apply (an_order_in s (find i) k' y (Or i)) in Ky.
    destruct (find_loop_none _ _ Ex _ _ Ky) as (r0 & [= <-] & N). exact N.
Qed.
Lemma fcr_listing f o l a s w m : key_file (wFs w) (lPath l) s -> chosen l = Some (FList, a) -> kwell s -> ksKeys s = Some m -> an_order s (foList o) -> orders s (foListFind o) ->
  exists lines w', fc_main f o l w = Done (RList (ksTime s) (size m) (hex_encode (sha256 (owner s))) lines) w' /\
    Forall2 (line_of s) (foList o) lines /\ wFs w' = wFs w /\ wPw w' = wPw w.
Proof.
  intros K Hc W Em Oa Of. destruct (key_file_locked _ _ _ K) as (R & P & Lk & Bl).
  rewrite (main_eq f o l FList a s w Hc) by (try exact K; cbn; lia). cbn [needs_unlock then_ fc_run].
  destruct (list_loop_spec s (foListFind o) W Of (foList o) 0) as (lines & El & Fl).
  { intros [k v] Hk. destruct Oa as (m' & Em' & Pm). rewrite Pm in Hk. apply elem_of_map_to_list in Hk. destruct (W m' k v Em' Hk) as (_ & r0 & -> & _). eauto. }
  unfold fc_list. rewrite El. cbn [lift then_ fst snd]. rewrite finish_quiet; [|apply no_priv, P|apply K|destruct K as (_ & X & _); exact X].
  rewrite (kkeys_some _ _ Em), obytes_octets. fold (owner s). exists lines. eexists. split; [reflexivity|]. auto.
Qed.
End WithCrypto.

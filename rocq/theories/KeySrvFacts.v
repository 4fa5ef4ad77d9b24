(** Facts about single commands of the key server. *)
From Verif Require Export SpecKeySrv KeyStoreClaims KeyStoreCerts.
Local Open Scope Z_scope.

Section WithCrypto.
Context {C : Crypto} {L : CryptoLaws}.

(** *** Audits of stores built through the API *)
Lemma built_vks s o l : built s -> an_order s o -> kpresent s l -> exists w, verify_key_signature o s l = Ret (Some w) /\ (w = bs "self" \/ kpresent s w).
Proof.
  intros B O P. pose proof (built_inv s B) as [R W Ow Pv T].
  apply (kwell_present s l W) in P as [r K]. pose proof (kwell_label _ _ _ W K) as [N _].
  destruct (T l r K) as [n Tn]. inversion Tn as [l0 r0 K0 S0 G0|n0 l0 r0 l1 r1 K0 K1 S0 NS G0 T0]; subst;
    rewrite <- (krecord_fun _ _ _ _ K K0) in *.
  - exists self. split; [|left; reflexivity]. rewrite (vks_owner o s l r) by assumption. rewrite bool_decide_eq_true_2 by exact G0. reflexivity.
  - rewrite (vks_signed o s l r) by assumption.
    destruct (find_loop_total o (signer r)) as [[l'|] F].
    { destruct O as (m & E & Pm). intros k v I. rewrite Pm, elem_of_map_to_list in I.
      destruct (W m k v E I) as (_ & x & -> & _). discriminate. }
    + rewrite F. cbn [obind]. destruct (find_loop_record s o _ _ O F) as (k & v & Kv & Sv & Lv).
      rewrite (proj2 (kwell_label s k v W Kv)) in Lv. subst k. rewrite (keys_of_record s l' v) by assumption. cbn [obind].
      exists l'. split; [|right; apply kwell_present; eauto]. rewrite bool_decide_eq_true_2; [reflexivity|].
      unfold good_under in G0. rewrite <- S0, <- Sv in G0. exact G0.
    + exfalso. destruct O as (m & E & Pm), K1 as (m' & E' & H). rewrite E in E'. injection E' as <-.
      destruct (find_loop_none o _ F l1 (Some r1)) as (x & [= <-] & Nx); [|congruence].
      rewrite Pm, elem_of_map_to_list. exact H.
Qed.
Lemma built_chain s os : built s -> orders s os -> forall f i l, kpresent s l ->
  chain_loop os f i s l = Ret (Some true) \/ chain_loop os f i s l = Ret None.
Proof.
  intros B O. induction f as [|f IH]; intros i l P; [right; reflexivity|]. cbn [chain_loop].
  destruct (built_vks s (os i) l B (O i) P) as (w & -> & Hw). cbn [obind]. case_decide as D; [left; reflexivity|].
  destruct Hw as [Hw|Hw]; [contradiction|]. apply IH. exact Hw.
Qed.
Lemma built_verify s os f l : built s -> orders s os -> kpresent s l ->
  verify_chain os f s l = Ret (Some true) \/ verify_chain os f s l = Ret None.
Proof.
  intros B O P. pose proof (built_inv s B) as [R W Ow Pv T]. unfold verify_chain.
  rewrite (proj2 (ks_quick_iff s) R), (proj2 (ks_has_iff s l)) by auto. cbn [negb orb].
  case_decide; [left; reflexivity|]. apply built_chain; assumption.
Qed.
Lemma built_audit s os f labels : built s -> (forall i, orders s (os i)) -> an_order s labels ->
  key_audit os f s labels = Ret (Some true) \/ key_audit os f s labels = Ret None.
Proof.
  intros B O (m & E & P). pose proof (built_inv s B) as [R _ _ _ _]. unfold key_audit. rewrite (proj2 (ks_quick_iff s) R). cbn [negb].
  assert (forall l v, (l, v) ∈ labels -> kpresent s l) as H.
  { intros l v I. rewrite P, elem_of_map_to_list in I. exists m, v. auto. }
  clear P. generalize 0%nat as i. induction labels as [|[l v] labels IH]; intros i; [left; reflexivity|]. cbn [audit_loop].
  destruct (built_verify s (os i) f l B (O i)) as [-> | ->]; [eapply H; left| |right; reflexivity].
  cbn [obind]. apply IH. intros l' v' I. eapply H. right. exact I.
Qed.
(** Some choice of orders ends the audit. *)
Lemma trusted_ends s n l : ready s -> kwell s -> trusted_in s n l ->
  exists os, orders s os /\ forall f i, (n <= f)%nat -> forall os', (forall j, os' (i + j)%nat = os j) -> chain_loop os' f i s l = Ret (Some true).
Proof.
  intros R W T. induction T as [l r K S G|n l r l' r' K K' S NS G T IH]; pose proof (kwell_label _ _ _ W K) as [N _].
  - destruct (find_loop_first s l r K) as (o & O & _). exists (fun _ => o). split; [intros _; exact O|].
    intros [|f] i Hf os' E; [lia|]. cbn [chain_loop]. rewrite (vks_owner _ s l r) by assumption. rewrite bool_decide_eq_true_2 by exact G. reflexivity.
  - destruct IH as (os & O & H). destruct (find_loop_first s l' r' K') as (o & Oo & F).
    exists (fun j => match j with 0%nat => o | Datatypes.S j => os j end). split; [intros [|j]; auto|].
    intros [|f] i Hf os' E; [lia|]. cbn [chain_loop].
    pose proof (E 0%nat) as E0. rewrite Nat.add_0_r in E0. rewrite E0.
    rewrite (vks_signed _ s l r) by assumption. rewrite S, F. cbn [obind].
    pose proof (kwell_label _ _ _ W K') as [N' Lr]. rewrite Lr, (keys_of_record s l' r') by assumption. cbn [obind].
    rewrite bool_decide_eq_true_2 by exact G. cbn [obind]. rewrite decide_False by exact N'.
    apply H; [lia|]. intros j. specialize (E (Datatypes.S j)). cbn in E. rewrite <- E. f_equal. lia.
Qed.
Lemma audit_can_end s : built s -> exists os f labels, (forall i, orders s (os i)) /\ an_order s labels /\ key_audit os f s labels = Ret (Some true).
Proof.
  intros B. pose proof (built_inv s B) as [R W Ow Pv T].
  assert (exists m, ksKeys s = Some m) as [m E] by (destruct (ksKeys s) eqn:E; [eauto|destruct R as (_ & _ & []); assumption]).
  assert (an_order s (map_to_list m)) as Om by (exists m; auto).
  assert (forall labels, (forall l v, (l, v) ∈ labels -> (l, v) ∈ map_to_list m) -> exists os f, (forall i, orders s (os i)) /\
    forall i os', (forall j, os' (i + j)%nat = os j) -> forall f', (f <= f')%nat -> audit_loop os' f' i s labels = Ret (Some true)) as X.
  { induction labels as [|[l v] labels IH]; intros H.
    - exists (fun _ _ => map_to_list m), 0%nat. split; [intros i j; exact Om|reflexivity].
    - destruct IH as (os & f & Oo & IH); [intros l' v' I; apply H; right; exact I|].
      assert (m !! l = Some v) as Hl by (apply elem_of_map_to_list, H; left).
      destruct (kwell_record s m l v W E Hl) as (N & r & -> & _ & K).
      destruct (T l r K) as [n Tn]. destruct (trusted_ends s n l R W Tn) as (g & Og & Hg).
      exists (fun j => match j with 0%nat => g | Datatypes.S j => os j end), (Nat.max n f). split; [intros [|i]; auto|].
      intros i os' E' f' Hf'. cbn [audit_loop].
      pose proof (E' 0%nat) as E0. rewrite Nat.add_0_r in E0. rewrite E0. unfold verify_chain.
      rewrite (proj2 (ks_quick_iff s) R), (proj2 (ks_has_iff s l)) by (split; [exact R|right; exists m, (Some r); auto]). cbn [negb orb].
      rewrite decide_False by exact N. rewrite (Hg f' 0%nat) by (try lia; reflexivity). cbn [obind].
      apply IH; [|lia]. intros j. specialize (E' (Datatypes.S j)). cbn in E'. rewrite <- E'. f_equal. lia. }
  destruct (X (map_to_list m)) as (os & f & Oo & H); [auto|]. exists os, f, (map_to_list m). split; [exact Oo|]. split; [exact Om|].
  unfold key_audit. rewrite (proj2 (ks_quick_iff s) R). cbn [negb]. apply (H 0%nat os); [reflexivity|lia].
Qed.

(** *** One command *)
Lemma import_key_cases o1 o2 now s l data b s' : kwell s -> an_order s o1 -> an_order s o2 ->
  import_verified_key o1 o2 now s l data = Ret (b, s') ->
  (b = false /\ s' = s /\ (distinct_keys s -> forall v, parse_verified_key data = Some v -> ~ importable s l v)) \/
  (b = true /\ exists v, parse_verified_key data = Some v /\ importable s l v /\
     added s l (KRec l 1 now (Some (vPublic v)) (Some (vSig v)) (Some (vSigner v)) (vTime v) None) s').
Proof.
  intros W O1 O2 H. unfold import_verified_key in H. unfold parse_verified_key.
  destruct (pem_decode data) as [[ty body]|]; [|injection H as <- <-; left; split; [reflexivity|]; split; [reflexivity|]; intros _ v [=]].
  destruct (decide (ty <> VerifiedKeyType)) as [D|D]; [injection H as <- <-; left; split; [reflexivity|]; split; [reflexivity|]; intros _ v [=]|].
  destruct b; [right|left]; (split; [reflexivity|]).
  - exact (import_sound o1 o2 now s l body s' W O1 O2 H).
  - split; [eapply import_false_unchanged; eauto|]. intros Dk v Pv Im.
    destruct (import_certain o1 o2 now s l body v W Dk O1 O2 Pv Im) as (s1 & E). rewrite E in H. discriminate H.
Qed.
Lemma import_key_total o1 o2 now s l data : kwell s -> an_order s o1 -> an_order s o2 -> exists r, import_verified_key o1 o2 now s l data = Ret r.
Proof.
  intros W O1 O2. unfold import_verified_key. destruct (pem_decode data) as [[ty body]|]; [|eauto]. case_decide; [eauto|].
  apply import_total; assumption.
Qed.
Lemma early_none s l : ready s -> (l = bs "self" \/ kpresent s l) -> l <> [] -> early_error s l = None.
Proof. intros R P N. unfold early_error. rewrite (proj2 (ks_has_iff s l)) by auto. rewrite decide_False by exact N. reflexivity. Qed.
Lemma self_not_nil : bs "self" <> [].
Proof. discriminate. Qed.
Lemma process_served ch now s c r s' : built s -> fair_choices s ch -> process ch now s c = Ret (Some (r, s')) -> served s c r s'.
Proof.
  intros B (O1 & O2 & Os & Ol) H. pose proof (built_inv s B) as [R W Ow Pv T]. destruct c as [[| | |] l d]; unfold process in H; cbn [cOp cLabel cData] in H.
  - injection H as H <-. case_decide as D.
    + subst l r. rewrite early_none by (auto using self_not_nil). constructor.
    + destruct (kkeys s !! l) as [[x|]|] eqn:E.
      * subst r. rewrite !obytes_octets. apply sv_public; [exact D|]. apply krecord_lookup. exact E.
      * exfalso. assert (kpresent s l) as P by (apply kpresent_lookup; eauto). apply (kwell_present s l W) in P as [x K].
        apply krecord_lookup in K. congruence.
      * subst r. apply sv_no_public; [exact D|]. rewrite kpresent_lookup, E. intros [? [=]].
  - injection H as H <-. case_decide as D.
    + subst l r. rewrite early_none by (auto using self_not_nil). rewrite obytes_octets. apply sv_own_print.
    + destruct (kkeys s !! l) as [[x|]|] eqn:E.
      * subst r. rewrite obytes_octets. assert (krecord s l x) as K by (apply krecord_lookup; exact E).
        destruct (decide (l = [])) as [-> |N].
        -- unfold early_error. rewrite (proj2 (ks_has_iff s [])) by (split; [exact R|right; apply kwell_present; eauto]).
           rewrite decide_True by reflexivity. apply sv_print_empty. exact K.
        -- rewrite early_none; [apply sv_print; assumption|exact R| |exact N]. right. apply kwell_present; eauto.
      * exfalso. assert (kpresent s l) as P by (apply kpresent_lookup; eauto). apply (kwell_present s l W) in P as [x K].
        apply krecord_lookup in K. congruence.
      * subst r. apply sv_no_print; [exact D|]. rewrite kpresent_lookup, E. intros [? [=]].
  - unfold check_upload in H. cbn [cLabel cData] in H. case_decide as D.
    + cbn [obind] in H. injection H as <- <-. apply sv_bad_label. exact D.
    + destruct (import_verified_key _ _ now s l d) as [[b s1]|] eqn:E; cbn [obind] in H; [|discriminate H].
      assert (l <> bs "self" /\ l <> []) as [N1 N2] by (split; intros ->; apply D; [left|right]; reflexivity).
      apply import_key_cases in E as [(-> & -> & X)|(-> & v & Pv' & Im & A)]; try assumption; injection H as <- <-.
      * apply sv_refused; assumption.
      * eapply sv_added; eauto.
  - destruct (built_audit s (chOs ch) (chRounds ch) (chLabels ch) B Os Ol) as [E|E]; rewrite E in H; cbn [obind] in H; [|discriminate H].
    injection H as <- <-. apply sv_audit.
Qed.
Lemma process_built ch now s c r s' : built s -> fair_choices s ch -> process ch now s c = Ret (Some (r, s')) -> built s'.
Proof.
  intros B (O1 & O2 & Os & Ol) H. destruct c as [[| | |] l d]; unfold process in H; cbn [cOp cLabel cData] in H.
  - injection H as _ <-. exact B.
  - injection H as _ <-. exact B.
  - unfold check_upload in H. cbn [cLabel cData] in H. case_decide as D; cbn [obind] in H; [injection H as _ <-; exact B|].
    destruct (import_verified_key _ _ now s l d) as [[b s1]|] eqn:E; cbn [obind] in H; [|discriminate H].
    injection H as _ <-. eapply bt_import_pem; [exact B|exact O1|exact O2|exact E].
  - destruct (key_audit _ _ s _) as [[ok|]|]; cbn [obind] in H; try discriminate H. injection H as _ <-. exact B.
Qed.
Lemma process_no_panic ch now s c : built s -> fair_choices s ch -> process ch now s c <> Panic.
Proof.
  intros B (O1 & O2 & Os & Ol). pose proof (built_inv s B) as [R W Ow Pv T]. destruct c as [[| | |] l d]; unfold process; cbn [cOp cLabel cData]; try discriminate.
  - unfold check_upload. cbn [cLabel cData]. case_decide; [discriminate|].
    destruct (import_key_total (chOne ch) (chTwo ch) now s l d W O1 O2) as [[b s1] E]. rewrite E. discriminate.
  - destruct (built_audit s (chOs ch) (chRounds ch) (chLabels ch) B Os Ol) as [E|E]; rewrite E; discriminate.
Qed.
Lemma process_possible now s c : built s -> exists ch r s', fair_choices s ch /\ process ch now s c = Ret (Some (r, s')).
Proof.
  intros B. destruct (audit_can_end s B) as (os & f & labels & Os & Ol & A).
  set (ch := Ch labels labels os labels f). assert (fair_choices s ch) as F by (split_and!; assumption).
  exists ch. destruct (process ch now s c) as [[[r s']|]|] eqn:E.
  - exists r, s'. auto.
  - exfalso. destruct c as [[| | |] l d]; unfold process in E; cbn [cOp cLabel cData] in E; try discriminate E.
    + destruct (check_upload _ _ _ _) as [x|]; discriminate E.
    + cbn [ch chOs chRounds chLabels] in E. rewrite A in E. discriminate E.
  - exfalso. exact (process_no_panic ch now s c B F E).
Qed.
(** Only an audit can go on for ever. *)
Lemma process_ends ch now s c : cOp c <> Audit -> process ch now s c <> Ret None.
Proof.
  intros N. destruct c as [[| | |] l d]; unfold process; cbn [cOp cLabel cData] in *; try discriminate; [|contradiction].
  destruct (check_upload _ _ _ _) as [x|]; discriminate.
Qed.
End WithCrypto.

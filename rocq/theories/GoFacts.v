(** The JSON decoders of the stores against [SpecGo]. *)
From Verif Require Export SpecGo CodecFacts.
Local Open Scope Z_scope.

(** *** Names *)
Definition letter (c : byte) : Prop := 65 <= bz c <= 90 \/ 97 <= bz c <= 122.
Definition fold1 (a : byte) : byte := if decide (97 <= bz a <= 122) then zb (bz a - 32) else a.
Lemma fold1_upper a : fold1 a = upper a.
Proof. reflexivity. Qed.
Lemma fold_ascii a r : bz a < 128 -> fold_name (a :: r) = upper a :: fold_name r.
Proof.
  intros A. destruct r as [|b [|c r]]; cbn [fold_name]; try reflexivity.
  - rewrite decide_False by (intros [-> _]; cbn in A; lia). reflexivity.
  - rewrite decide_False by (intros [-> _]; cbn in A; lia). rewrite decide_False by (intros [-> _]; cbn in A; lia). reflexivity.
Qed.
Lemma fold_long_s r : fold_name (xc5 :: xbf :: r) = x53 :: fold_name r.
Proof. destruct r; cbn [fold_name]; rewrite decide_True by auto; reflexivity. Qed.
Lemma fold_kelvin r : fold_name (xe2 :: x84 :: xaa :: r) = x4b :: fold_name r.
Proof. cbn [fold_name]. rewrite decide_False by (intros [X _]; discriminate X). rewrite decide_True by auto. reflexivity. Qed.
Lemma letter_ascii c : letter c -> bz c < 128.
Proof. unfold letter. lia. Qed.
Lemma upper_letter c : letter c -> 65 <= bz (upper c) <= 90.
Proof. unfold letter, upper. intros H. case_decide; [rewrite bz_zb; rewrite Z.mod_small by lia; lia|lia]. Qed.
Lemma upper_back d : 65 <= bz (upper d) <= 90 -> letter d.
Proof. unfold letter, upper. case_decide as D; [lia|]. lia. Qed.
Lemma fold_plain n : Forall letter n -> fold_name n = map upper n.
Proof. induction 1 as [|c n H F IH]; [reflexivity|]. rewrite fold_ascii by (apply letter_ascii; exact H). cbn [map]. f_equal. exact IH. Qed.
Lemma fold_cases k : k = [] \/ (exists r, k = xc5 :: xbf :: r) \/ (exists r, k = xe2 :: x84 :: xaa :: r) \/ exists a r, k = a :: r /\ fold_name k = upper a :: fold_name r.
Proof.
  destruct k as [|a r]; [auto|]. right. destruct r as [|b r2]; [right; right; exists a, []; split; reflexivity|].
  destruct (decide (a = xc5 /\ b = xbf)) as [[-> ->]|N1]; [left; eauto|]. right. destruct r2 as [|c r3].
  - right. exists a, [b]. split; [reflexivity|]. cbn [fold_name]. rewrite decide_False by exact N1. reflexivity.
  - destruct (decide (a = xe2 /\ b = x84 /\ c = xaa)) as [(-> & -> & ->)|N2]; [left; eauto|]. right. exists a, (b :: c :: r3). split; [reflexivity|].
    cbn [fold_name]. rewrite decide_False by exact N1. rewrite decide_False by exact N2. reflexivity.
Qed.
Lemma spells_fold n : Forall letter n -> forall k, spells n k <-> fold_name k = map upper n.
Proof.
  induction 1 as [|c n Hc F IH]; intros k.
  - split; [intros H; inversion H; reflexivity|]. intros E. destruct (fold_cases k) as [-> |[(r & ->)|[(r & ->)|(a & r & -> & E')]]]; [constructor| | |].
    + rewrite fold_long_s in E. discriminate E.
    + rewrite fold_kelvin in E. discriminate E.
    + rewrite E' in E. discriminate E.
  - cbn [map]. split.
    + intros H. inversion H as [|c0 d n0 k0 U S|c0 n0 k0 U S|c0 n0 k0 U S]; subst.
      * rewrite fold_ascii. { rewrite U. f_equal. apply IH. exact S. }
        apply letter_ascii, upper_back. rewrite <- U. apply upper_letter. exact Hc.
      * rewrite fold_long_s, U. f_equal. apply IH. exact S.
      * rewrite fold_kelvin, U. f_equal. apply IH. exact S.
    + intros E. destruct (fold_cases k) as [-> |[(r & ->)|[(r & ->)|(a & r & -> & E')]]].
      * discriminate E.
      * rewrite fold_long_s in E. injection E as E1 E2. apply sp_long_s; [congruence|]. apply IH. exact E2.
      * rewrite fold_kelvin in E. injection E as E1 E2. apply sp_kelvin; [congruence|]. apply IH. exact E2.
      * rewrite E' in E. injection E as E1 E2. apply sp_char; [congruence|]. apply IH. exact E2.
Qed.
Definition is_letter (c : byte) : bool := bool_decide (65 <= bz c <= 90) || bool_decide (97 <= bz c <= 122).
Lemma plain_name n : forallb is_letter n = true -> Forall letter n.
Proof.
  intros H. apply Forall_forall. intros c I. rewrite forallb_forall in H. apply elem_of_list_In, H in I. unfold is_letter in I. unfold letter.
  apply orb_true_iff in I as [I|I]; apply bool_decide_eq_true in I; auto.
Qed.
Lemma field_is_spells n k : forallb is_letter n = true -> field_is n k = true <-> spells n k.
Proof. intros H. apply plain_name in H. rewrite (spells_fold n H k). unfold field_is. rewrite bool_decide_eq_true. rewrite (fold_plain n H). reflexivity. Qed.

(** *** Values *)
Lemma forallb_digits d : forallb is_dig d = true <-> Forall is_digit d.
Proof.
  rewrite forallb_forall, Forall_forall. unfold is_dig, is_digit. split; intros H x I.
  - apply elem_of_list_In, H, bool_decide_eq_true in I. exact I.
  - apply bool_decide_eq_true. apply H, elem_of_list_In, I.
Qed.
Lemma lit_int_exact l v : lit_int l = Some v <-> int_literal l v.
Proof.
  unfold lit_int, int_literal. split.
  - destruct (psign l) as [sg d] eqn:P. case_decide as D; [discriminate|]. destruct (forallb is_dig d) eqn:F; [|discriminate]. intros [= <-].
    apply forallb_digits in F. exists d. split; [split; assumption|]. unfold psign in P. destruct l as [|b r]; [injection P as <- <-; congruence|].
    case_decide as B; injection P as <- <-; [right; subst; auto|left; auto].
  - intros (d & (N & F) & X). assert (psign l = ([], d) /\ v = dval d \/ psign l = ([x2d], d) /\ v = - dval d) as Y.
    { destruct X as [(-> & ->)|(-> & ->)].
      - left. split; [|reflexivity]. destruct d as [|b d]; [congruence|]. cbn [psign]. rewrite decide_False; [reflexivity|]. intros ->. inversion F as [|? ? B]; subst. unfold is_digit in B. cbn in B. lia.
      - right. split; reflexivity. }
    apply forallb_digits in F. destruct Y as [(-> & ->)|(-> & ->)]; rewrite decide_False by exact N; rewrite F; reflexivity.
Qed.
Lemma dec_int_exact cur j v : dec_int cur j = Some v <-> go_int cur j v.
Proof.
  split.
  - destruct j; cbn [dec_int]; try discriminate; [intros [= <-]; constructor|]. destruct (lit_int lit) as [z|] eqn:E; [|discriminate]. case_decide as D; [|discriminate]. intros [= <-].
    constructor; [apply lit_int_exact; exact E|exact D].
  - intros [|l z H R]; [reflexivity|]. cbn [dec_int]. apply lit_int_exact in H. rewrite H, decide_True by exact R. reflexivity.
Qed.
Lemma dec_str_exact cur j v : dec_str cur j = Some v <-> go_string cur j v.
Proof. split; [destruct j; cbn [dec_str]; try discriminate; intros [= <-]; constructor|intros []; reflexivity]. Qed.
Lemma dec_u8_exact cur j b : dec_u8 cur j = Some b <-> go_byte cur j b.
Proof.
  split.
  - destruct j; cbn [dec_u8]; try discriminate; [intros [= <-]; constructor|]. case_decide as D; [discriminate|]. destruct (lit_int lit) as [z|] eqn:E; [|discriminate]. case_decide as R; [|discriminate]. intros [= <-].
    apply lit_int_exact in E as (d & Hd & [(-> & ->)|(-> & ->)]); [|exfalso; apply D; reflexivity]. constructor; [exact Hd|]. rewrite bz_zb. symmetry. apply Z.mod_small. exact R.
  - intros [|d b' Hd V]; [reflexivity|]. cbn [dec_u8]. rewrite decide_False.
    + assert (lit_int d = Some (dval d)) as -> by (apply lit_int_exact; exists d; auto). pose proof (bz_range b'). rewrite decide_True by lia. rewrite V, zb_bz. reflexivity.
    + destruct d as [|c d]; [discriminate|]. intros [= ->]. destruct Hd as [_ F]. inversion F as [|? ? B]; subst. unfold is_digit in B. cbn in B. lia.
Qed.
Lemma dec_u8s_exact l : forall cur b, dec_u8s cur l = Some b <-> go_array cur l b.
Proof.
  induction l as [|j l IH]; intros cur b; cbn [dec_u8s].
  - split; [intros [= <-]; constructor|intros H; inversion H; reflexivity].
  - split.
    + destruct (dec_u8 (default x00 (head cur)) j) as [x|] eqn:E; [|discriminate]. destruct (dec_u8s (tail cur) l) as [r|] eqn:R; [|discriminate]. intros [= <-].
      apply dec_u8_exact in E. apply IH in R. destruct cur as [|c cur]; constructor; assumption.
    + intros H. inversion H as [|c cur' ? ? x r X R|? ? x r X R]; subst; apply dec_u8_exact in X; apply IH in R; cbn [head default tail]; cbn; rewrite X, R; reflexivity.
Qed.
Lemma dec_bytes_exact cur j v : dec_bytes cur j = Some v <-> go_bytes cur j v.
Proof.
  split.
  - destruct j; cbn [dec_bytes]; try discriminate; [intros [= <-]; constructor| |].
    + destruct (b64_decode s) as [b|] eqn:E; [|discriminate]. intros [= <-]. constructor. apply b64_exact. exact E.
    + destruct (dec_u8s _ l) as [b|] eqn:E; [|discriminate]. intros [= <-]. constructor. apply dec_u8s_exact. exact E.
  - intros [|s b H|l b H]; [reflexivity| |]; cbn [dec_bytes].
    + apply b64_exact in H. rewrite H. reflexivity.
    + apply dec_u8s_exact in H. rewrite H. reflexivity.
Qed.
Lemma dec_ptr_exact {A} (dec : json -> option A) (R : json -> A -> Prop) : (forall j v, dec j = Some v <-> R j v) -> forall j v, dec_ptr dec j = Some v <-> go_pointer R j v.
Proof.
  intros H j v. assert (j = JNull \/ j <> JNull) as [-> |N] by (destruct j; auto; right; discriminate).
  - split; [intros [= <-]; constructor|]. intros X. inversion X; [reflexivity|congruence].
  - assert (dec_ptr dec j = match dec j with Some v => Some (Some v) | None => None end) as -> by (destruct j; [congruence|reflexivity..]). split.
    + destruct (dec j) as [x|] eqn:E; [|discriminate]. intros [= <-]. constructor; [exact N|]. apply H. exact E.
    + intros X. inversion X as [|? x _ Y]; subst; [congruence|]. apply H in Y. rewrite Y. reflexivity.
Qed.
Lemma dec_elems_exact {A} (dec : json -> option A) (R : json -> A -> Prop) : (forall j v, dec j = Some v <-> R j v) -> forall l m m', dec_elems dec l m = Some m' <-> go_entries R l m m'.
Proof.
  intros H l. induction l as [|[k j] l IH]; intros m m'; cbn [dec_elems].
  - split; [intros [= <-]; constructor|intros X; inversion X; reflexivity].
  - split.
    + destruct (dec j) as [v|] eqn:E; [|discriminate]. intros X. econstructor; [apply H; exact E|apply IH; exact X].
    + intros X. inversion X as [|? ? ? v ? ? Y Z]; subst. apply H in Y. rewrite Y. apply IH. exact Z.
Qed.
Lemma dec_map_exact {A} (dec : json -> option A) (R : json -> A -> Prop) : (forall j v, dec j = Some v <-> R j v) -> forall cur j m, dec_map dec cur j = Some m <-> go_map R cur j m.
Proof.
  intros H cur j m. split.
  - destruct j; cbn [dec_map]; try discriminate; [intros [= <-]; constructor|]. destruct (dec_elems _ _ _) as [x|] eqn:E; [|discriminate]. intros [= <-]. constructor. eapply dec_elems_exact; [exact H|exact E].
  - intros [|l x X]; [reflexivity|]. cbn [dec_map]. apply (dec_elems_exact dec R H) in X. rewrite X. reflexivity.
Qed.
Definition field_rules {A} (f : bytes -> json -> A -> option A) (rs : rules A) : Prop :=
  forall k j a a', f k j a = Some a' <-> (exists n R, (n, R) ∈ rs /\ spells n k /\ R j a a') \/ ((forall n R, (n, R) ∈ rs -> ~ spells n k) /\ a' = a).
Lemma dec_fields_exact {A} (f : bytes -> json -> A -> option A) rs : field_rules f rs -> forall l a b, dec_fields f l a = Some b <-> go_members rs l a b.
Proof.
  intros H l. induction l as [|[k j] l IH]; intros a b; cbn [dec_fields].
  - split; [intros [= <-]; constructor|intros X; inversion X; reflexivity].
  - split.
    + destruct (f k j a) as [c|] eqn:E; [|discriminate]. intros X. apply IH in X. apply H in E as [(n & R & I & S & Y)|(N & ->)].
      * eapply go_set; eassumption.
      * apply go_skip; assumption.
    + intros X. inversion X as [|? ? ? n R ? a' ? I S Y Z|? ? ? ? ? N Z]; subst.
      * assert (f k j a = Some a') as -> by (apply H; left; eauto). apply IH. exact Z.
      * assert (f k j a = Some a) as -> by (apply H; right; auto). apply IH. exact Z.
Qed.
Lemma dec_struct_exact {A} (f : bytes -> json -> A -> option A) rs cur : field_rules f rs -> forall j a, dec_struct f cur j = Some a <-> go_struct rs cur j a.
Proof.
  intros H j a. split.
  - destruct j; cbn [dec_struct]; try discriminate; [intros [= <-]; constructor|]. intros X. constructor. eapply dec_fields_exact; [exact H|exact X].
  - intros [|l x X]; [reflexivity|]. cbn [dec_struct]. apply (dec_fields_exact f rs H). exact X.
Qed.

(** One rule after another. *)
Definition rule_names {A} (rs : rules A) : list bytes := map fst rs.
Lemma rules_nil {A} : field_rules (fun _ _ (a : A) => Some a) [].
Proof.
  intros k j a a'. split; [intros [= <-]; right; split; [intros n R I; inversion I|reflexivity]|]. intros [(n & R & I & _)|(_ & ->)]; [inversion I|reflexivity].
Qed.
Lemma rules_cons {A B} (f : bytes -> json -> A -> option A) rs n (get : A -> json -> option B) (R : A -> json -> B -> Prop) (set : A -> B -> A) :
  forallb is_letter n = true -> Forall (fun m => forallb is_letter m = true /\ map upper m <> map upper n) (rule_names rs) ->
  (forall a j v, get a j = Some v <-> R a j v) -> field_rules f rs ->
  field_rules (fun k j a => if field_is n k then match get a j with Some v => Some (set a v) | None => None end else f k j a)
    ((n, fun j a a' => exists v, R a j v /\ a' = set a v) :: rs).
Proof.
  intros Hn Hd Hg Hf k j a a'. destruct (field_is n k) eqn:E.
  - apply (field_is_spells n k Hn) in E as S. split.
    + destruct (get a j) as [v|] eqn:G; [|discriminate]. intros [= <-]. left. exists n. eexists. split; [left|]. split; [exact S|]. exists v. split; [apply Hg; exact G|reflexivity].
    + intros [(m & R' & I & S' & X)|(N & _)]; [|exfalso; eapply N; [left|exact S]]. apply elem_of_cons in I as [I|I].
      * injection I as -> ->. destruct X as (v & X & ->). apply Hg in X. rewrite X. reflexivity.
      * exfalso. rewrite Forall_forall in Hd. destruct (Hd m) as [Lm Dm]; [unfold rule_names; apply elem_of_list_fmap; exists (m, R'); auto|].
        apply Dm. rewrite <- (proj1 (spells_fold m (plain_name m Lm) k) S'). apply (spells_fold n (plain_name n Hn) k). exact S.
  - assert (~ spells n k) as NS by (intros S; apply (field_is_spells n k Hn) in S; congruence). rewrite (Hf k j a a'). split.
    + intros [(m & R' & I & S & X)|(N & ->)]; [left; exists m, R'; split; [right; exact I|auto]|]. right. split; [|reflexivity]. intros m R' I S. apply elem_of_cons in I as [I|I]; [injection I as -> _; auto|eapply N; eassumption].
    + intros [(m & R' & I & S & X)|(N & ->)].
      * apply elem_of_cons in I as [I|I]; [injection I as -> ->; exfalso; auto|]. left. eauto.
      * right. split; [|reflexivity]. intros m R' I. apply (N m R'). right. exact I.
Qed.
Lemma rules_ext {A} (f g : bytes -> json -> A -> option A) rs : (forall k j a, f k j a = g k j a) -> field_rules g rs -> field_rules f rs.
Proof. intros E H k j a a'. rewrite E. apply H. Qed.
Ltac distinct_names := cbn [rule_names map fst]; repeat (apply List.Forall_cons; [split; [reflexivity|intros X; vm_compute in X; discriminate X]|]); apply List.Forall_nil.
Ltac one_rule g R s := apply (rules_cons _ _ _ g R s); [reflexivity|distinct_names| |].

(** *** The types *)
Lemma rec_field_rules : field_rules rec_field srec_rules.
Proof.
  unfold srec_rules, rec_field.
  one_rule (fun a j => dec_str (rLabel a) j) (fun a j v => go_string (rLabel a) j v) (fun r v => SRec v (rTime r) (rSecret r) (rMeta r)); [intros; apply dec_str_exact|].
  one_rule (fun a j => dec_int (rTime a) j) (fun a j v => go_int (rTime a) j v) (fun r v => SRec (rLabel r) v (rSecret r) (rMeta r)); [intros; apply dec_int_exact|].
  one_rule (fun a j => dec_bytes (rSecret a) j) (fun a j v => go_bytes (rSecret a) j v) (fun r v => SRec (rLabel r) (rTime r) v (rMeta r)); [intros; apply dec_bytes_exact|].
  one_rule (fun a j => dec_map (dec_bytes None) (rMeta a) j) (fun a j v => go_map (go_bytes None) (rMeta a) j v) (fun r v => SRec (rLabel r) (rTime r) (rSecret r) v); [intros; apply dec_map_exact; apply dec_bytes_exact|].
  apply rules_nil.
Qed.
Lemma dec_rec_exact j r : dec_rec j = Some r <-> go_srec j r.
Proof. apply dec_struct_exact, rec_field_rules. Qed.
Lemma store_field_rules : field_rules store_field sstore_rules.
Proof.
  unfold sstore_rules, store_field.
  one_rule (fun a j => dec_int (sVersion a) j) (fun a j v => go_int (sVersion a) j v) (fun s v => SStore v (sTime s) (sRecs s) (sPass s)); [intros; apply dec_int_exact|].
  one_rule (fun a j => dec_int (sTime a) j) (fun a j v => go_int (sTime a) j v) (fun s v => SStore (sVersion s) v (sRecs s) (sPass s)); [intros; apply dec_int_exact|].
  one_rule (fun a j => dec_map (dec_ptr dec_rec) (sRecs a) j) (fun a j v => go_map (go_pointer go_srec) (sRecs a) j v) (fun s v => SStore (sVersion s) (sTime s) v (sPass s)); [intros; apply dec_map_exact, dec_ptr_exact, dec_rec_exact|].
  apply rules_nil.
Qed.
Lemma dec_store_exact j s : dec_store j = Some s <-> go_sstore j s.
Proof. apply dec_struct_exact, store_field_rules. Qed.

Lemma krec_field_rules : field_rules krec_field krec_rules.
Proof.
  apply (rules_ext _ (fun k j a => if field_is (bs "Label") k then match dec_str (krLabel a) j with Some v => Some (KRec v (krVersion a) (krTime a) (krKeys a) (krSig a) (krSigner a) (krSigTime a) (krMeta a)) | None => None end else if field_is (bs "Version") k then match dec_int (krVersion a) j with Some v => Some (KRec (krLabel a) v (krTime a) (krKeys a) (krSig a) (krSigner a) (krSigTime a) (krMeta a)) | None => None end else if field_is (bs "Timestamp") k then match dec_int (krTime a) j with Some v => Some (KRec (krLabel a) (krVersion a) v (krKeys a) (krSig a) (krSigner a) (krSigTime a) (krMeta a)) | None => None end else if field_is (bs "Keys") k then match dec_bytes (krKeys a) j with Some v => Some (KRec (krLabel a) (krVersion a) (krTime a) v (krSig a) (krSigner a) (krSigTime a) (krMeta a)) | None => None end else if field_is (bs "KeySignature") k then match dec_bytes (krSig a) j with Some v => Some (KRec (krLabel a) (krVersion a) (krTime a) (krKeys a) v (krSigner a) (krSigTime a) (krMeta a)) | None => None end else if field_is (bs "KeySigner") k then match dec_bytes (krSigner a) j with Some v => Some (KRec (krLabel a) (krVersion a) (krTime a) (krKeys a) (krSig a) v (krSigTime a) (krMeta a)) | None => None end else if field_is (bs "SignatureTime") k then match dec_int (krSigTime a) j with Some v => Some (KRec (krLabel a) (krVersion a) (krTime a) (krKeys a) (krSig a) (krSigner a) v (krMeta a)) | None => None end else if field_is (bs "Metadata") k then match dec_map (dec_str []) (krMeta a) j with Some v => Some (KRec (krLabel a) (krVersion a) (krTime a) (krKeys a) (krSig a) (krSigner a) (krSigTime a) v) | None => None end else Some a)); [intros ? ? []; reflexivity|]. unfold krec_rules.
  one_rule (fun a j => dec_str (krLabel a) j) (fun a j v => go_string (krLabel a) j v) (fun a v => KRec v (krVersion a) (krTime a) (krKeys a) (krSig a) (krSigner a) (krSigTime a) (krMeta a)); [intros; apply dec_str_exact|].
  one_rule (fun a j => dec_int (krVersion a) j) (fun a j v => go_int (krVersion a) j v) (fun a v => KRec (krLabel a) v (krTime a) (krKeys a) (krSig a) (krSigner a) (krSigTime a) (krMeta a)); [intros; apply dec_int_exact|].
  one_rule (fun a j => dec_int (krTime a) j) (fun a j v => go_int (krTime a) j v) (fun a v => KRec (krLabel a) (krVersion a) v (krKeys a) (krSig a) (krSigner a) (krSigTime a) (krMeta a)); [intros; apply dec_int_exact|].
  one_rule (fun a j => dec_bytes (krKeys a) j) (fun a j v => go_bytes (krKeys a) j v) (fun a v => KRec (krLabel a) (krVersion a) (krTime a) v (krSig a) (krSigner a) (krSigTime a) (krMeta a)); [intros; apply dec_bytes_exact|].
  one_rule (fun a j => dec_bytes (krSig a) j) (fun a j v => go_bytes (krSig a) j v) (fun a v => KRec (krLabel a) (krVersion a) (krTime a) (krKeys a) v (krSigner a) (krSigTime a) (krMeta a)); [intros; apply dec_bytes_exact|].
  one_rule (fun a j => dec_bytes (krSigner a) j) (fun a j v => go_bytes (krSigner a) j v) (fun a v => KRec (krLabel a) (krVersion a) (krTime a) (krKeys a) (krSig a) v (krSigTime a) (krMeta a)); [intros; apply dec_bytes_exact|].
  one_rule (fun a j => dec_int (krSigTime a) j) (fun a j v => go_int (krSigTime a) j v) (fun a v => KRec (krLabel a) (krVersion a) (krTime a) (krKeys a) (krSig a) (krSigner a) v (krMeta a)); [intros; apply dec_int_exact|].
  one_rule (fun a j => dec_map (dec_str []) (krMeta a) j) (fun a j v => go_map (go_string []) (krMeta a) j v) (fun a v => KRec (krLabel a) (krVersion a) (krTime a) (krKeys a) (krSig a) (krSigner a) (krSigTime a) v); [intros; apply dec_map_exact; apply dec_str_exact|].
  apply rules_nil.
Qed.
Lemma dec_krec_exact j r : dec_krec j = Some r <-> go_krec j r.
Proof. apply dec_struct_exact, krec_field_rules. Qed.
Lemma kstore_field_rules : field_rules kstore_field kstore_rules.
Proof.
  apply (rules_ext _ (fun k j a => if field_is (bs "Version") k then match dec_int (ksVersion a) j with Some v => Some (KStore v (ksTime a) (ksKeys a) (ksBlob a) (ksPub a) (ksExport a) (ksPriv a) (ksLocked a)) | None => None end else if field_is (bs "Timestamp") k then match dec_int (ksTime a) j with Some v => Some (KStore (ksVersion a) v (ksKeys a) (ksBlob a) (ksPub a) (ksExport a) (ksPriv a) (ksLocked a)) | None => None end else if field_is (bs "Keys") k then match dec_map (dec_ptr dec_krec) (ksKeys a) j with Some v => Some (KStore (ksVersion a) (ksTime a) v (ksBlob a) (ksPub a) (ksExport a) (ksPriv a) (ksLocked a)) | None => None end else if field_is (bs "PrivateKey") k then match dec_bytes (ksBlob a) j with Some v => Some (KStore (ksVersion a) (ksTime a) (ksKeys a) v (ksPub a) (ksExport a) (ksPriv a) (ksLocked a)) | None => None end else if field_is (bs "PublicKey") k then match dec_bytes (ksPub a) j with Some v => Some (KStore (ksVersion a) (ksTime a) (ksKeys a) (ksBlob a) v (ksExport a) (ksPriv a) (ksLocked a)) | None => None end else if field_is (bs "ExportKey") k then match dec_bytes (ksExport a) j with Some v => Some (KStore (ksVersion a) (ksTime a) (ksKeys a) (ksBlob a) (ksPub a) v (ksPriv a) (ksLocked a)) | None => None end else Some a)); [intros ? ? []; reflexivity|]. unfold kstore_rules.
  one_rule (fun a j => dec_int (ksVersion a) j) (fun a j v => go_int (ksVersion a) j v) (fun a v => KStore v (ksTime a) (ksKeys a) (ksBlob a) (ksPub a) (ksExport a) (ksPriv a) (ksLocked a)); [intros; apply dec_int_exact|].
  one_rule (fun a j => dec_int (ksTime a) j) (fun a j v => go_int (ksTime a) j v) (fun a v => KStore (ksVersion a) v (ksKeys a) (ksBlob a) (ksPub a) (ksExport a) (ksPriv a) (ksLocked a)); [intros; apply dec_int_exact|].
  one_rule (fun a j => dec_map (dec_ptr dec_krec) (ksKeys a) j) (fun a j v => go_map (go_pointer go_krec) (ksKeys a) j v) (fun a v => KStore (ksVersion a) (ksTime a) v (ksBlob a) (ksPub a) (ksExport a) (ksPriv a) (ksLocked a)); [intros; apply dec_map_exact, dec_ptr_exact, dec_krec_exact|].
  one_rule (fun a j => dec_bytes (ksBlob a) j) (fun a j v => go_bytes (ksBlob a) j v) (fun a v => KStore (ksVersion a) (ksTime a) (ksKeys a) v (ksPub a) (ksExport a) (ksPriv a) (ksLocked a)); [intros; apply dec_bytes_exact|].
  one_rule (fun a j => dec_bytes (ksPub a) j) (fun a j v => go_bytes (ksPub a) j v) (fun a v => KStore (ksVersion a) (ksTime a) (ksKeys a) (ksBlob a) v (ksExport a) (ksPriv a) (ksLocked a)); [intros; apply dec_bytes_exact|].
  one_rule (fun a j => dec_bytes (ksExport a) j) (fun a j v => go_bytes (ksExport a) j v) (fun a v => KStore (ksVersion a) (ksTime a) (ksKeys a) (ksBlob a) (ksPub a) v (ksPriv a) (ksLocked a)); [intros; apply dec_bytes_exact|].
  apply rules_nil.
Qed.
Lemma dec_kstore_exact j s : dec_kstore j = Some s <-> go_kstore_json j s.
Proof. apply dec_struct_exact, kstore_field_rules. Qed.

Lemma lauth_field_rules : field_rules lauth_field lauth_rules.
Proof.
  apply (rules_ext _ (fun k j a => if field_is (bs "type") k then match dec_str (lType a) j with Some v => Some (LAuth v (lLabel a) (lLast a) (lSecret a)) | None => None end else if field_is (bs "label") k then match dec_str (lLabel a) j with Some v => Some (LAuth (lType a) v (lLast a) (lSecret a)) | None => None end else if field_is (bs "last") k then match dec_str (lLast a) j with Some v => Some (LAuth (lType a) (lLabel a) v (lSecret a)) | None => None end else if field_is (bs "secret") k then match dec_bytes (lSecret a) j with Some v => Some (LAuth (lType a) (lLabel a) (lLast a) v) | None => None end else Some a)); [intros ? ? []; reflexivity|]. unfold lauth_rules.
  one_rule (fun a j => dec_str (lType a) j) (fun a j v => go_string (lType a) j v) (fun a v => LAuth v (lLabel a) (lLast a) (lSecret a)); [intros; apply dec_str_exact|].
  one_rule (fun a j => dec_str (lLabel a) j) (fun a j v => go_string (lLabel a) j v) (fun a v => LAuth (lType a) v (lLast a) (lSecret a)); [intros; apply dec_str_exact|].
  one_rule (fun a j => dec_str (lLast a) j) (fun a j v => go_string (lLast a) j v) (fun a v => LAuth (lType a) (lLabel a) v (lSecret a)); [intros; apply dec_str_exact|].
  one_rule (fun a j => dec_bytes (lSecret a) j) (fun a j v => go_bytes (lSecret a) j v) (fun a v => LAuth (lType a) (lLabel a) (lLast a) v); [intros; apply dec_bytes_exact|].
  apply rules_nil.
Qed.
Lemma luser_field_rules : field_rules luser_field luser_rules.
Proof.
  apply (rules_ext _ (fun k j a => if field_is (bs "Name") k then match dec_str (uName a) j with Some v => Some (LUser v (uAuth a)) | None => None end else if field_is (bs "Auth") k then match dec_lauth (uAuth a) j with Some v => Some (LUser (uName a) v) | None => None end else Some a)); [intros ? ? []; reflexivity|]. unfold luser_rules.
  one_rule (fun a j => dec_str (uName a) j) (fun a j v => go_string (uName a) j v) (fun a v => LUser v (uAuth a)); [intros; apply dec_str_exact|].
  one_rule (fun a j => dec_lauth (uAuth a) j) (fun a j v => go_pointer (go_struct lauth_rules (default (LAuth [] [] [] None) (uAuth a))) j v) (fun a v => LUser (uName a) v); [intros; intros; apply dec_ptr_exact; apply dec_struct_exact, lauth_field_rules|].
  apply rules_nil.
Qed.
Lemma dec_users_exact j s : dec_users j = Some s <-> go_users j s.
Proof. apply dec_map_exact, dec_ptr_exact. intros ? ?. apply dec_struct_exact, luser_field_rules. Qed.

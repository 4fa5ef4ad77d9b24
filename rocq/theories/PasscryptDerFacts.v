(** The archive format of passcrypt: what is written is DER, and it is read back. *)
From Verif Require Import BytesFacts DerFacts JsonFacts Utf8Facts SpecPasscrypt.
Local Open Scope Z_scope.

Lemma printable_iff b : printable false b = true <-> printable_char b.
Proof. unfold printable_char. rewrite <- (bool_decide_spec (b ∈ _)). destruct b; vm_compute; split; first [intros []; exact I|discriminate|reflexivity|intros _; exact I|intros _; reflexivity]. Qed.
Lemma all_printable s : forallb (printable false) s = true <-> Forall printable_char s.
Proof. rewrite forallb_forall, Forall_forall. split; intros H b Hb; [apply printable_iff, H, elem_of_list_In, Hb|apply printable_iff, H, elem_of_list_In, Hb]. Qed.
Lemma printable_ascii b : printable_char b -> 0 <= bz b < 128.
Proof. intros H. apply printable_iff in H. unfold printable in H. pose proof (bz_range b). repeat (apply orb_true_iff in H as [H|H]); try (apply bool_decide_eq_true in H; lia). rewrite andb_false_l in H. discriminate. Qed.
Lemma printable_text s : Forall printable_char s -> utf8_text s.
Proof.
  induction 1 as [|b s H F IH]; [constructor|]. apply printable_ascii in H. change (b :: s) with ([b] ++ s). apply (text_cons (bz b)); [unfold scalar; lia| |exact IH].
  replace [b] with (octets [bz b]) by (cbn; rewrite zb_bz; reflexivity). apply U1. lia.
Qed.
Lemma printable_more s : Forall printable_char s -> forallb (printable true) s = true.
Proof. intros F. apply forallb_forall. intros b Hb. rewrite Forall_forall in F. apply elem_of_list_In, F, printable_iff in Hb. unfold printable in *. apply orb_true_iff in Hb as [Hb|Hb]; [rewrite Hb; reflexivity|discriminate]. Qed.
Lemma utf8_valid_iff s : utf8_valid s = true <-> utf8_text s.
Proof.
  unfold utf8_valid. rewrite forallb_forall. split.
  - intros H. apply utf8_is_text. unfold utf8. apply Forall_forall. intros c Hc. apply elem_of_list_In, H in Hc. apply negb_true_iff, bool_decide_eq_false in Hc. exact Hc.
  - intros H c Hc. apply text_utf8 in H. unfold utf8 in H. rewrite Forall_forall in H. apply elem_of_list_In, H in Hc. apply negb_true_iff, bool_decide_eq_false. exact Hc.
Qed.

Lemma element_size tag c e : element tag c e -> zlen c < zlen e.
Proof. intros (l & _ & ->). unfold zlen. cbn [length]. rewrite app_length. lia. Qed.
Lemma element_nonnil tag c e : element tag c e -> e <> [].
Proof. intros (l & _ & ->). discriminate. Qed.
Lemma zlen_app (a b : bytes) : zlen (a ++ b) = zlen a + zlen b.
Proof. unfold zlen. rewrite app_length. lia. Qed.
Lemma zlen_nonneg (a : bytes) : 0 <= zlen a.
Proof. unfold zlen. lia. Qed.
Lemma der_element_is tag c : zlen c < 2 ^ 64 -> element tag c (der_element tag c).
Proof. intros H. apply element_eq; [exact H|reflexivity]. Qed.
Lemma der_element_len tag c : zlen c < zlen (der_element tag c).
Proof. unfold der_element, zlen. cbn [length]. rewrite app_length. lia. Qed.

Lemma der_element_small tag c : zlen (der_element tag c) < 2 ^ 64 -> element tag c (der_element tag c) /\ zlen c < 2 ^ 64.
Proof. intros H. assert (zlen c < 2 ^ 64) as X by (eapply Z.lt_trans; [apply der_element_len|exact H]). split; [apply der_element_is, X|exact X]. Qed.

(** *** Writing *)
Lemma der_string_none s : der_string s = None <-> ~ utf8_text s.
Proof.
  unfold der_string. destruct (forallb (printable false) s) eqn:E; [apply all_printable, printable_text in E; split; [discriminate|contradiction]|]. destruct (utf8_valid s) eqn:V; [apply utf8_valid_iff in V; split; [discriminate|contradiction]|]. split; [|reflexivity]. intros _ H. apply utf8_valid_iff in H. congruence.
Qed.
Lemma der_string_is s e : der_string s = Some e -> zlen e < 2 ^ 64 -> string_der s e.
Proof.
  unfold der_string. destruct (forallb (printable false) s) eqn:E.
  - intros [= <-] H. apply str_printable; [apply all_printable, E|]. apply (der_element_small _ _ H).
  - destruct (utf8_valid s) eqn:V; [|discriminate]. intros [= <-] H. apply str_utf8; [intros X; apply all_printable in X; congruence|apply utf8_valid_iff, V|]. apply (der_element_small _ _ H).
Qed.
Lemma der_file_none x : der_file x = None <-> ~ utf8_text (fPath x).
Proof. unfold der_file. rewrite <- der_string_none. destruct (der_string (fPath x)); split; congruence. Qed.
Lemma der_file_is x e : go_file x -> der_file x = Some e -> zlen e < 2 ^ 64 -> file_der x e.
Proof.
  unfold der_file. destruct (der_string (fPath x)) as [p|] eqn:E; [|discriminate]. intros G Q H. apply (inj Some) in Q. subst e.
  pose proof (der_element_small _ _ H) as (HE & Hb). rewrite !zlen_app in Hb. assert (forall a b c n, 0 <= a -> 0 <= b -> 0 <= c -> a + (b + c) < n -> a < n /\ b < n /\ c < n) as X by (clear; intros; lia).
  apply X in Hb as (Hp & Hm & Hd); try apply zlen_nonneg.
  exists p, (be (int_length 7 (fMode x)) (fMode x)), (der_int (fMode x)), (der_octets (fData x)). split; [apply der_string_is; [exact E|exact Hp]|]. split; [apply int_contents_exists, G|].
  split; [apply (der_element_small _ _ Hm)|]. split; [apply (der_element_small _ _ Hd)|exact HE].
Qed.
Lemma der_list_none l : der_list l = None <-> exists x, x ∈ l /\ ~ utf8_text (fPath x).
Proof.
  induction l as [|x l IH]; cbn [der_list]; [split; [discriminate|intros (x & H & _); apply elem_of_nil in H as []]|]. pose proof (der_file_none x) as X. destruct (der_file x) as [a|].
  - destruct (der_list l) as [b|]; (split; [intros H|]).
    + discriminate.
    + intros (y & [<-|Hy]%elem_of_cons & U); [discriminate (proj2 X U)|]. assert (Some b = None) by (apply IH; eauto). discriminate.
    + destruct (proj1 IH eq_refl) as (y & Hy & U). exists y. split; [right; exact Hy|exact U].
    + reflexivity.
  - split; [|reflexivity]. intros _. exists x. split; [left|apply X; reflexivity].
Qed.
Lemma der_list_is l : forall b, Forall go_file l -> der_list l = Some b -> zlen b < 2 ^ 64 -> exists es, Forall2 file_der l es /\ b = concat es.
Proof.
  induction l as [|x l IH]; intros b G E H; cbn [der_list] in E; [injection E as <-; exists []; split; [constructor|reflexivity]|]. inversion G as [|? ? Gx Gl]; subst.
  destruct (der_file x) as [a|] eqn:Ea; [|discriminate]. destruct (der_list l) as [c|] eqn:Ec; [|discriminate]. injection E as <-. rewrite zlen_app in H. pose proof (zlen_nonneg a). pose proof (zlen_nonneg c).
  destruct (IH c Gl eq_refl) as (es & Fe & ->); [lia|]. exists (a :: es). split; [|reflexivity]. constructor; [apply der_file_is; [exact Gx|exact Ea|lia]|exact Fe].
Qed.
Lemma der_files_none l : der_files l = None <-> exists x, x ∈ l /\ ~ utf8_text (fPath x).
Proof. unfold der_files. rewrite <- der_list_none. destruct (der_list l); split; congruence. Qed.
Lemma der_files_is l s : Forall go_file l -> der_files l = Some s -> zlen s < 2 ^ 64 -> files_der l s.
Proof.
  unfold der_files. destruct (der_list l) as [b|] eqn:E; [|discriminate]. intros G [= <-] H. pose proof (der_element_len TagSequence b) as LB. destruct (der_list_is l b G E) as (es & F & ->); [lia|]. exists es. split; [exact F|]. apply der_element_is. lia.
Qed.

(** *** Reading it back *)
Lemma take_string_back s e r : string_der s e -> zlen e < 2 ^ 31 -> take_string (e ++ r) = Some (s, r).
Proof.
  intros D H. unfold take_string. destruct D as [P E|P U E].
  - pose proof (element_size _ _ _ E). destruct E as (l & L & ->). change ((x13 :: l ++ s) ++ r) with (x13 :: (l ++ s) ++ r). cbv iota.
    rewrite (proj2 (der_field_exact x13 (x13 :: (l ++ s) ++ r) s r)); [|split; [lia|exists (x13 :: l ++ s); split; [exists l; auto|reflexivity]]]. cbn [string_of]. rewrite (printable_more s P). reflexivity.
  - pose proof (element_size _ _ _ E). destruct E as (l & L & ->). change ((x0c :: l ++ s) ++ r) with (x0c :: (l ++ s) ++ r). cbv iota.
    rewrite (proj2 (der_field_exact x0c (x0c :: (l ++ s) ++ r) s r)); [|split; [lia|exists (x0c :: l ++ s); split; [exists l; auto|reflexivity]]]. cbn [string_of]. rewrite (proj2 (utf8_valid_iff s) U). reflexivity.
Qed.
Lemma field_back tag c e r : element tag c e -> zlen c < 2 ^ 31 -> der_field tag (e ++ r) = Some (c, r).
Proof. intros E H. apply der_field_exact. split; [exact H|]. eauto. Qed.
Lemma int_contents_len z c : int_contents z c -> int64 z -> zlen c <= 8.
Proof.
  intros I H. rewrite (int_contents_fun z c _ I (int_contents_exists z H)). unfold zlen. rewrite length_be. enough (forall f i, (int_length f i <= S f)%nat) as X by (specialize (X 7%nat z); lia). induction f as [|f IH]; intros i; cbn [int_length]; [lia|]. case_decide; [|lia]. specialize (IH (i / 256)). lia.
Qed.
Lemma string_der_field s e : string_der s e -> exists tag, element tag s e.
Proof. intros [? E|? ? E]; eauto. Qed.
Lemma file_der_parts x e : file_der x e -> exists b, element x30 b e /\ (zlen e < 2 ^ 31 -> go_file x -> parse_file b = Some x).
Proof.
  intros (p & c & m & d & P & I & M & D & E). exists (p ++ m ++ d). split; [exact E|]. intros H Gx. pose proof (element_size _ _ _ E) as L. rewrite !zlen_app in L. pose proof (zlen_nonneg p). pose proof (zlen_nonneg m). pose proof (zlen_nonneg d).
  unfold parse_file. rewrite (take_string_back _ _ (m ++ d) P) by lia. pose proof (element_size _ _ _ M). pose proof (element_size _ _ _ D).
  rewrite (field_back TagInteger c m d M) by lia. rewrite (proj2 (der_int64_exact c (fMode x))) by (split; [apply Gx|exact I]). rewrite <- (app_nil_r d). rewrite (field_back TagOctetString (fData x) d [] D) by lia. destruct x; reflexivity.
Qed.
Lemma parse_list_back l es : Forall2 file_der l es -> Forall go_file l -> zlen (concat es) < 2 ^ 31 -> forall f, (length (concat es) <= f)%nat -> parse_list f (concat es) = Some l.
Proof.
  induction 1 as [|x e l es Hx F IH]; intros G H f Lf; [destruct f; reflexivity|]. inversion G as [|? ? Gx Gl]; subst. cbn [concat] in *. rewrite zlen_app in H. rewrite app_length in Lf. pose proof (zlen_nonneg e). pose proof (zlen_nonneg (concat es)).
  destruct (file_der_parts x e Hx) as (b & E & P). pose proof (element_size _ _ _ E). assert (length e <> 0%nat) as Ne by (intros X; apply (element_nonnil _ _ _ E), length_zero_iff_nil, X).
  destruct f as [|f]; [lia|]. cbn [parse_list]. destruct (e ++ concat es) as [|y t] eqn:Ey; [apply app_nil in Ey as [-> _]; destruct (Ne eq_refl)|]. rewrite <- Ey, (field_back TagSequence b e (concat es) E) by lia. rewrite P by (first [lia|exact Gx]). rewrite IH; [reflexivity|exact Gl|lia|lia].
Qed.
Lemma parse_files_back l s junk : files_der l s -> Forall go_file l -> zlen s < 2 ^ 31 -> parse_files (s ++ junk) = Some l.
Proof.
  intros (es & F & E) G H. pose proof (element_size _ _ _ E). unfold parse_files. rewrite (field_back TagSequence _ s junk E) by lia. apply parse_list_back; [exact F|exact G|lia|lia].
Qed.
(** Archives with two gigabytes or more in them are written but cannot be read. *)
Lemma length_octets_det n n' l l' r r' : 0 <= n -> 0 <= n' -> length_octets n l -> length_octets n' l' -> l ++ r = l' ++ r' -> n < 256 ^ 127 -> n' < 256 ^ 127 -> n = n'.
Proof.
  intros N N' H H' E B B'. inversion H as [? L|? k L K]; inversion H' as [? L'|? k' L' K']; subst; cbn [app] in E; injection E as E0 E1.
  - apply (f_equal bz) in E0. rewrite !bz_zb, !Z.mod_small in E0 by lia. exact E0.
  - apply (f_equal bz) in E0. assert (Z.of_nat k' <= 127) as K127. { destruct (Z.le_gt_cases (Z.of_nat k') 127); [assumption|]. assert (256 ^ 127 <= 256 ^ (Z.of_nat k' - 1)) by (apply Z.pow_le_mono_r; lia). lia. } rewrite !bz_zb, !Z.mod_small in E0 by lia. lia.
  - apply (f_equal bz) in E0. assert (Z.of_nat k <= 127) as K127. { destruct (Z.le_gt_cases (Z.of_nat k) 127); [assumption|]. assert (256 ^ 127 <= 256 ^ (Z.of_nat k - 1)) by (apply Z.pow_le_mono_r; lia). lia. } rewrite !bz_zb, !Z.mod_small in E0 by lia. lia.
  - apply (f_equal bz) in E0. assert (Z.of_nat k <= 127) as K127. { destruct (Z.le_gt_cases (Z.of_nat k) 127); [assumption|]. assert (256 ^ 127 <= 256 ^ (Z.of_nat k - 1)) by (apply Z.pow_le_mono_r; lia). lia. }
    assert (Z.of_nat k' <= 127) as K127'. { destruct (Z.le_gt_cases (Z.of_nat k') 127); [assumption|]. assert (256 ^ 127 <= 256 ^ (Z.of_nat k' - 1)) by (apply Z.pow_le_mono_r; lia). lia. }
    rewrite !bz_zb, !Z.mod_small in E0 by lia. assert (k' = k) as -> by lia. apply app_inj_1 in E1 as [E1 _]; [|rewrite !length_be; reflexivity]. apply (f_equal unbe) in E1. rewrite !unbe_be, !Z.mod_small in E1 by lia. exact E1.
Qed.
Lemma parse_files_large l es s : Forall2 file_der l es -> element x30 (concat es) s -> 2 ^ 31 <= zlen (concat es) < 2 ^ 64 -> parse_files s = None.
Proof.
  intros F (o & O & ->) H. unfold parse_files. destruct (der_field TagSequence (x30 :: o ++ concat es)) as [[c r]|] eqn:D; [|reflexivity]. exfalso. apply der_field_exact in D as (L & e & (o' & O' & ->) & E). cbn [app] in E. injection E as E. rewrite <- app_assoc in E. pose proof (zlen_nonneg c).
  assert (2 ^ 64 < 256 ^ 127) by (vm_compute; reflexivity). assert (zlen (concat es) = zlen c) by (eapply length_octets_det; try eassumption; lia). lia.
Qed.

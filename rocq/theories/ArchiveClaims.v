(** The reader of passcrypt's archives accepts what [SpecArchive] says and nothing else. *)
From Verif Require Export SpecArchive.
From Verif Require Import BytesFacts DerFacts JsonFacts Utf8Facts JsonText Base32Facts PasscryptDerFacts.
Local Open Scope Z_scope.

(** *** Strings *)
Lemma bytes_two (P : bytes -> Prop) : P [] -> (forall a, P [a]) -> (forall a b s, P s -> P (a :: b :: s)) -> forall s, P s.
Proof. intros H0 H1 H2. fix IH 1. intros [|a [|b s]]; [exact H0|apply H1|apply H2, IH]. Qed.
Lemma unit_range a b : 0 <= unit_of a b < 65536.
Proof. pose proof (bz_range a). pose proof (bz_range b). unfold unit_of. lia. Qed.
Lemma utf16_step a b r : utf16 (a :: b :: r) =
  let u := unit_of a b in
  if decide (55296 <= u < 56320) then
    match r with
    | c :: d :: r' => let v := unit_of c d in
        if decide (56320 <= v < 57344) then utf8_enc ((u - 55296) * 1024 + (v - 56320) + 65536) ++ utf16 r' else fffd ++ utf16 r
    | _ => fffd ++ utf16 r
    end
  else if decide (56320 <= u < 57344) then fffd ++ utf16 r else utf8_enc u ++ utf16 r.
Proof.
  assert (forall x y, unit_of x y = bz x * 256 + bz y) as U by (intros; unfold unit_of; lia). cbv zeta. destruct r as [|c [|d r']]; rewrite !U; reflexivity.
Qed.
Lemma utf16_sound n : forall s, (length s <= n)%nat -> (length s mod 2 = 0)%nat -> utf16_text s (utf16 s).
Proof.
  induction n as [|n IH]; intros s L E; [destruct s; [constructor|cbn in L; lia]|].
  destruct s as [|a [|b r]]; [constructor|cbn in E; discriminate|]. cbn [length] in L, E.
  assert (length r mod 2 = 0)%nat as Er. { replace (S (S (length r))) with (length r + 1 * 2)%nat in E by lia. rewrite Nat.mod_add in E by lia. exact E. }
  pose proof (unit_range a b) as R. rewrite utf16_step. cbv zeta. case_decide as H1.
  - destruct r as [|c [|d r']].
    + apply u16_lone; [left; unfold high_surrogate; lia|intros _ a' b' s' X; discriminate|constructor].
    + cbn in Er. discriminate.
    + case_decide as H2.
      * apply (u16_pair a b c d); [unfold high_surrogate; lia|unfold low_surrogate; lia| |].
        -- apply rfc_enc; [unfold scalar; lia|]. f_equal. lia.
        -- apply IH; cbn [length] in L, Er; [lia|]. replace (S (S (length r'))) with (length r' + 1 * 2)%nat in Er by lia. rewrite Nat.mod_add in Er by lia. exact Er.
      * apply u16_lone; [left; unfold high_surrogate; lia| |apply IH; [lia|exact Er]]. intros _ a' b' s' [= <- <- <-]. unfold low_surrogate. lia.
  - case_decide as H2.
    + apply u16_lone; [right; unfold low_surrogate; lia|unfold high_surrogate; lia|apply IH; [lia|exact Er]].
    + assert (scalar (unit_of a b)) as Sc by (unfold scalar; lia). apply u16_unit; [exact Sc|apply rfc_enc; [exact Sc|reflexivity]|apply IH; [lia|exact Er]].
Qed.
Lemma utf16_complete s v : utf16_text s v -> v = utf16 s /\ (length s mod 2 = 0)%nat.
Proof.
  assert (forall n, n mod 2 = 0 -> S (S n) mod 2 = 0)%nat as P2 by (intros n Hn; replace (S (S n)) with (n + 1 * 2)%nat by lia; rewrite Nat.mod_add by lia; exact Hn).
  induction 1 as [|a b c s v Sc R T (-> & M)|a b a' b' c s v H1 H2 R T (-> & M)|a b s v H N T (-> & M)]; cbn [length]; (split; [|repeat apply P2; exact M || reflexivity]).
  - reflexivity.
  - rewrite utf16_step. cbv zeta. pose proof Sc as (_ & X). rewrite !decide_False by lia. apply rfc_enc in R; [subst c; reflexivity|exact Sc].
  - rewrite utf16_step. cbv zeta. unfold high_surrogate, low_surrogate in *. rewrite decide_True by lia. rewrite decide_True by lia. apply rfc_enc in R; [|unfold scalar; lia]. subst c. f_equal. f_equal. lia.
  - rewrite utf16_step. cbv zeta. unfold high_surrogate, low_surrogate in *. case_decide as H1.
    + destruct s as [|c [|d s']]; [reflexivity..|]. rewrite decide_False; [reflexivity|]. specialize (N ltac:(lia) c d s' eq_refl). lia.
    + rewrite decide_True by lia. reflexivity.
Qed.
Lemma bmp_exact c s : bmp c = Some s <-> string_text x1e c s.
Proof.
  assert (forall b : bytes, length (b ++ [x00; x00]) mod 2 = length b mod 2)%nat as Ev by (intros b; rewrite app_length; cbn [length]; replace (length b + 2)%nat with (length b + 1 * 2)%nat by lia; apply Nat.mod_add; lia).
  assert ((2 <= length c /\ drop (length c - 2) c = [x00; x00])%nat <-> ends_zero c) as Ez.
  { split.
    - intros (L & D). exists (take (length c - 2) c). rewrite <- D. symmetry. apply take_drop.
    - intros (b & ->). rewrite app_length. cbn [length]. split; [lia|]. replace (length b + 2 - 2)%nat with (length b) by lia. apply drop_app. }
  unfold bmp. split.
  - case_decide as E; [discriminate|]. intros [= <-]. assert (length c mod 2 = 0)%nat as E' by lia. case_decide as Z.
    + destruct (proj1 Ez Z) as (b & ->). rewrite app_length. cbn [length]. replace (length b + 2 - 2)%nat with (length b) by lia. rewrite take_app.
      apply st_bmp_zero. apply (utf16_sound (length b)); [lia|]. rewrite Ev in E'. exact E'.
    + apply st_bmp; [rewrite <- Ez; exact Z|]. apply (utf16_sound (length c)); [lia|exact E'].
  - intros H. inversion H as [| | | | | |? ? N T|b ? T]; subst.
    + apply utf16_complete in T as (-> & M). rewrite decide_False by lia. rewrite decide_False by (rewrite Ez; exact N). reflexivity.
    + apply utf16_complete in T as (-> & M). rewrite decide_False by (rewrite Ev; lia). rewrite decide_True by (apply Ez; eexists; reflexivity).
      rewrite app_length. cbn [length]. replace (length b + 2 - 2)%nat with (length b) by lia. rewrite take_app. reflexivity.
Qed.
Lemma more_printable b : printable true b = true <-> printable_char b \/ b = x2a \/ b = x26.
Proof.
  rewrite <- printable_iff. pose proof (all_bytes_ok (fun b => Bool.eqb (printable true b) (printable false b || bool_decide (b = x2a \/ b = x26)))) as X.
  specialize (X ltac:(vm_compute; reflexivity) b). cbn beta in X. apply Bool.eqb_prop in X. rewrite X, orb_true_iff, bool_decide_eq_true. reflexivity.
Qed.
Lemma numeric_iff b : bool_decide (48 <= bz b <= 57 \/ bz b = 32) = true <-> b ∈ bs " 0123456789".
Proof.
  pose proof (all_bytes_ok (fun b => Bool.eqb (bool_decide (48 <= bz b <= 57 \/ bz b = 32)) (bool_decide (b ∈ bs " 0123456789")))) as X.
  specialize (X ltac:(vm_compute; reflexivity) b). cbn beta in X. apply Bool.eqb_prop in X. rewrite X, bool_decide_eq_true. reflexivity.
Qed.
Lemma forallb_Forall (f : byte -> bool) (P : byte -> Prop) s : (forall b, f b = true <-> P b) -> forallb f s = true <-> Forall P s.
Proof.
  intros H. induction s as [|b s IH]; cbn [forallb]; [split; auto|]. rewrite andb_true_iff, IH, H. split; [intros (A & B); constructor; assumption|inversion 1; auto].
Qed.
Lemma string_exact tag c s : string_of tag c = Some s <-> string_text tag c s.
Proof.
  split.
  - intros H. assert (tag = x13 \/ tag = x0c \/ tag = x12 \/ tag = x16 \/ tag = x14 \/ tag = x1b \/ tag = x1e) as T by (destruct tag; try discriminate H; tauto).
    destruct T as [->|[->|[->|[->|[->|[-> | ->]]]]]]; cbn [string_of] in H.
    + destruct (forallb (printable true) c) eqn:F; [|discriminate]. injection H as <-. apply st_printable. apply (forallb_Forall _ _ c more_printable), F.
    + destruct (utf8_valid c) eqn:F; [|discriminate]. injection H as <-. apply st_utf8, utf8_valid_iff, F.
    + destruct (forallb _ c) eqn:F; [|discriminate]. injection H as <-. apply st_numeric. apply (forallb_Forall _ _ c numeric_iff), F.
    + destruct (forallb _ c) eqn:F; [|discriminate]. injection H as <-. apply st_ia5. apply (forallb_Forall _ (fun b => bz b < 128) c (fun b => bool_decide_eq_true _)), F.
    + injection H as <-. apply st_t61.
    + injection H as <-. apply st_general.
    + apply bmp_exact, H.
  - intros H. destruct H as [c F|c U|c F|c F|c|c|c s N T|c s T]; cbn [string_of]; try reflexivity.
    + rewrite (proj2 (forallb_Forall _ _ c more_printable) F). reflexivity.
    + rewrite (proj2 (utf8_valid_iff c) U). reflexivity.
    + rewrite (proj2 (forallb_Forall _ _ c numeric_iff) F). reflexivity.
    + rewrite (proj2 (forallb_Forall _ (fun b => bz b < 128) c (fun b => bool_decide_eq_true _)) F). reflexivity.
    + apply bmp_exact. apply st_bmp; assumption.
    + apply bmp_exact. apply st_bmp_zero, T.
Qed.
Lemma take_string_exact s t r : take_string s = Some (t, r) <-> exists tag c e, string_text tag c t /\ zlen c < 2 ^ 31 /\ element tag c e /\ s = e ++ r.
Proof.
  split.
  - unfold take_string. destruct s as [|tag s]; [discriminate|]. destruct (der_field tag (tag :: s)) as [[c q]|] eqn:F; [|discriminate].
    destruct (string_of tag c) as [t'|] eqn:S; [|discriminate]. intros [= <- <-]. apply der_field_exact in F as (B & e & E & Es). apply string_exact in S. eauto 8.
  - intros (tag & c & e & S & B & E & ->). pose proof (proj2 (der_field_exact tag (e ++ r) c r) (conj B (ex_intro _ e (conj E eq_refl)))) as F.
    apply string_exact in S. pose proof E as (l & _ & El). unfold take_string. rewrite El in F |- *. cbn [app] in F |- *. rewrite F, S. reflexivity.
Qed.

(** *** Entries *)
Definition fields_text (b : bytes) (x : file) : Prop :=
  exists tag t p c m d extra, string_text tag t (fPath x) /\ element tag t p /\
    int64 (fMode x) /\ int_contents (fMode x) c /\ element x02 c m /\ element x04 (fData x) d /\ b = p ++ m ++ d ++ extra.
Lemma parse_file_exact b x : zlen b < 2 ^ 31 -> parse_file b = Some x <-> fields_text b x.
Proof.
  intros B. split.
  - unfold parse_file. destruct (take_string b) as [[p s]|] eqn:P; [|discriminate]. destruct (der_field TagInteger s) as [[c s']|] eqn:M; [|discriminate].
    destruct (der_int64 c) as [m|] eqn:I; [|discriminate]. destruct (der_field TagOctetString s') as [[d extra]|] eqn:D; [|discriminate]. intros [= <-].
    apply take_string_exact in P as (tag & t & e & S & _ & E & ->). apply der_field_exact in M as (_ & em & Em & ->). apply der_int64_exact in I as (I & Ic).
    apply der_field_exact in D as (_ & ed & Ed & ->). exists tag, t, e, c, em, ed, extra. cbn [fPath fMode fData]. split_and!; auto.
  - intros (tag & t & p & c & m & d & extra & S & P & I & Ic & M & D & ->). rewrite !zlen_app in B. pose proof (zlen_nonneg p). pose proof (zlen_nonneg m). pose proof (zlen_nonneg d). pose proof (zlen_nonneg extra).
    pose proof (element_size _ _ _ P). pose proof (element_size _ _ _ M). pose proof (element_size _ _ _ D). unfold parse_file.
    rewrite (proj2 (take_string_exact (p ++ m ++ d ++ extra) (fPath x) (m ++ d ++ extra))); [|exists tag, t, p; split_and!; auto; lia].
    rewrite (field_back TagInteger c m (d ++ extra) M) by lia. rewrite (proj2 (der_int64_exact c (fMode x))) by (split; [exact I|exact Ic]).
    rewrite (field_back TagOctetString (fData x) d extra D) by lia. destruct x; reflexivity.
Qed.
Lemma entry_fields x e : entry_text x e <-> exists b, fields_text b x /\ element x30 b e.
Proof.
  split.
  - intros (tag & t & p & c & m & d & extra & S & P & I & Ic & M & D & E). exists (p ++ m ++ d ++ extra). split; [|exact E]. exists tag, t, p, c, m, d, extra. split_and!; auto.
  - intros (b & (tag & t & p & c & m & d & extra & S & P & I & Ic & M & D & ->) & E). exists tag, t, p, c, m, d, extra. split_and!; auto.
Qed.
Lemma parse_list_exact f : forall s es, (length s <= f)%nat -> zlen s < 2 ^ 31 -> parse_list f s = Some es <-> exists l, Forall2 entry_text es l /\ s = concat l.
Proof.
  induction f as [|f IH]; intros s es L B.
  - destruct s; [|cbn in L; lia]. cbn [parse_list]. split; [intros [= <-]; exists []; split; [constructor|reflexivity]|].
    intros (l & F & E). destruct F as [|x e es l H F]; [reflexivity|]. exfalso. apply entry_fields in H as (b & _ & H). cbn [concat] in E. symmetry in E. apply app_nil in E as (E & _).
    exact (element_nonnil _ _ _ H E).
  - split.
    + destruct s as [|y s]; [intros [= <-]; exists []; split; [constructor|reflexivity]|]. cbn [parse_list].
      destruct (der_field TagSequence (y :: s)) as [[c r]|] eqn:D; [|discriminate]. destruct (parse_file c) as [x|] eqn:P; [|discriminate].
      destruct (parse_list f r) as [l|] eqn:R; [|discriminate]. intros [= <-]. apply der_field_exact in D as (Bc & e & E & Es).
      pose proof (f_equal (@length byte) Es) as Ls. rewrite app_length in Ls. assert (length e <> 0%nat) as Ne by (intros X; apply (element_nonnil _ _ _ E), length_zero_iff_nil, X).
      assert (zlen r < 2 ^ 31) as Br by (eapply Z.le_lt_trans; [|exact B]; unfold zlen; rewrite Ls; lia). apply IH in R as (es' & F & ->); [|lia|exact Br].
      exists (e :: es'). split; [|exact Es]. constructor; [|exact F]. apply entry_fields. exists c. split; [|exact E]. apply parse_file_exact; assumption.
    + intros (l & F & ->). destruct F as [|x e es l H F]; [destruct f; reflexivity|]. apply entry_fields in H as (b & Fb & E). cbn [concat] in *.
      pose proof (element_size _ _ _ E). rewrite zlen_app in B. pose proof (zlen_nonneg (concat l)). pose proof (zlen_nonneg e). rewrite app_length in L.
      assert (length e <> 0%nat) as Ne by (intros X; apply (element_nonnil _ _ _ E), length_zero_iff_nil, X).
      cbn [parse_list]. destruct (e ++ concat l) as [|y t] eqn:Ey; [apply app_nil in Ey as [-> _]; destruct (Ne eq_refl)|].
      rewrite <- Ey, (field_back TagSequence b e (concat l) E) by lia. rewrite (proj2 (parse_file_exact b x ltac:(lia)) Fb).
      rewrite (proj2 (IH (concat l) es ltac:(lia) ltac:(lia)) (ex_intro _ l (conj F eq_refl))). reflexivity.
Qed.
Lemma archive_exact s es : parse_files s = Some es <-> archive_text s es.
Proof.
  split.
  - unfold parse_files. destruct (der_field TagSequence s) as [[c junk]|] eqn:D; [|discriminate]. intros P. apply der_field_exact in D as (B & e & E & ->).
    apply parse_list_exact in P as (l & F & ->); [|lia|exact B]. exists l, e, junk. split_and!; auto.
  - intros (l & e & junk & F & B & E & ->). unfold parse_files. rewrite (field_back TagSequence (concat l) e junk E B). apply parse_list_exact; [lia|exact B|eauto].
Qed.
(** What is written is among them. *)
Lemma string_der_text s e : string_der s e -> exists tag, string_text tag s s /\ element tag s e.
Proof.
  intros [P E|P U E].
  - exists x13. split; [|exact E]. apply st_printable. eapply Forall_impl; [exact P|]. auto.
  - exists x0c. split; [|exact E]. apply st_utf8, U.
Qed.
Lemma files_der_archive es s junk : Forall go_file es -> files_der es s -> zlen s < 2 ^ 31 -> archive_text (s ++ junk) es.
Proof. intros G D B. apply archive_exact. apply parse_files_back; assumption. Qed.

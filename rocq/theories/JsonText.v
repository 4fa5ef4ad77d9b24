(** The JSON reader accepts exactly the texts of [SpecJson]. *)
From Verif Require Import BytesFacts.
From Verif Require Export SpecJson JsonFacts Utf8Facts.
Local Open Scope Z_scope.

Lemma hexval_spec b x : unhexdigit b = Some x <-> hexval b x.
Proof.
  unfold unhexdigit. split.
  - repeat case_decide; intros [= <-].
    + apply hv_digit. assumption.
    + replace (bz b - 87) with (bz b - 97 + 10) by lia. apply hv_lower. assumption.
    + replace (bz b - 55) with (bz b - 65 + 10) by lia. apply hv_upper. assumption.
  - destruct 1; repeat case_decide; try lia; f_equal; lia.
Qed.
Lemma hexval_range b x : hexval b x -> 0 <= x < 16.
Proof. destruct 1; lia. Qed.
Lemma quad_range ds u : quad ds u -> 0 <= u < 65536.
Proof. intros (a & b & c & d & x & y & z & w & _ & H1 & H2 & H3 & H4 & ->). apply hexval_range in H1, H2, H3, H4. lia. Qed.
Lemma quad_length ds u : quad ds u -> length ds = 4%nat.
Proof. intros (a & b & c & d & x & y & z & w & -> & _). reflexivity. Qed.
Lemma hex4_spec s u r : hex4 s = Some (u, r) <-> exists ds, quad ds u /\ s = ds ++ r.
Proof.
  split.
  - destruct s as [|a [|b [|c [|d s]]]]; try discriminate. cbn [hex4].
    destruct (unhexdigit a) as [x|] eqn:E1; [|discriminate]. destruct (unhexdigit b) as [y|] eqn:E2; [|discriminate].
    destruct (unhexdigit c) as [z|] eqn:E3; [|discriminate]. destruct (unhexdigit d) as [w|] eqn:E4; [|discriminate].
    intros [= <- <-]. exists [a; b; c; d]. split; [|reflexivity]. apply hexval_spec in E1, E2, E3, E4.
    exists a, b, c, d, x, y, z, w. repeat (split; [first [reflexivity|assumption]|]). lia.
  - intros (ds & (a & b & c & d & x & y & z & w & -> & H1 & H2 & H3 & H4 & ->) & ->). apply hexval_spec in H1, H2, H3, H4.
    cbn [app hex4]. rewrite H1, H2, H3, H4. f_equal. f_equal. lia.
Qed.
Lemma quad_fun ds u u' : quad ds u -> quad ds u' -> u = u'.
Proof.
  intros H H'. assert (hex4 (ds ++ []) = Some (u, [])) as E by (apply hex4_spec; eauto).
  assert (hex4 (ds ++ []) = Some (u', [])) as E' by (apply hex4_spec; eauto). congruence.
Qed.
Lemma u4_spec s u r : u4 s = Some (u, r) <-> exists ds, quad ds u /\ s = x5c :: x75 :: ds ++ r.
Proof.
  split.
  - destruct s as [|a [|b s]]; try discriminate. cbn [u4]. case_decide as D; [|discriminate]. destruct D as [-> ->].
    intros H. apply hex4_spec in H as (ds & Q & ->). eauto.
  - intros (ds & Q & ->). cbn [u4]. rewrite decide_True by auto. apply hex4_spec. eauto.
Qed.
Lemma rfc_enc r c : scalar r -> rfc3629 r c <-> c = utf8_enc r.
Proof.
  intros [R _]. split.
  - destruct 1 as [r H|r H|r H|r H]; unfold utf8_enc, octets; cbn [map]; repeat case_decide; try lia; rewrite ?Z.div_div by lia; reflexivity.
  - intros ->. unfold utf8_enc. repeat case_decide.
    + apply (U1 r). lia.
    + apply (U2 r). lia.
    + replace (r / 4096) with (r / 64 / 64) by lia. apply (U3 r). lia.
    + replace (r / 262144) with (r / 64 / 64 / 64) by lia. replace (r / 4096) with (r / 64 / 64) by lia. apply (U4 r). lia.
Qed.
Lemma escape_spec e c : escape e = Some c <-> (e, c) ∈ short_escapes.
Proof.
  unfold escape, short_escapes. rewrite !elem_of_cons, elem_of_nil. split.
  - repeat case_decide; intros [= <-]; subst; try tauto. destruct H as [-> | [-> | ->]]; tauto.
  - intros H. repeat (destruct H as [[= -> ->]|H]; [reflexivity|]). contradiction.
Qed.
Lemma escape_x75 : escape x75 = None. Proof. reflexivity. Qed.

(** Where the reader sees a well-formed character, and where it does not. *)
Lemma len_char s : utf8_len s <> 0%nat -> exists r c t, s = c ++ t /\ scalar r /\ rfc3629 r c /\ take (utf8_len s) s = c /\ drop (utf8_len s) s = t.
Proof.
  intros NZ. pose proof (take_len_chunk _ NZ) as O. pose proof (utf8_len_app s [] NZ) as U. rewrite app_nil_r in U.
  destruct (chunk_rfc _ O) as (x & R & F); [lia|]. exists x, (take (utf8_len s) s), (drop (utf8_len s) s).
  rewrite take_drop. auto 6.
Qed.
Lemma len_stray b s : utf8_len (b :: s) = 0%nat <-> forall r c, scalar r -> rfc3629 r c -> ~ c `prefix_of` b :: s.
Proof.
  split.
  - intros E r c R F [t Et]. destruct (rfc3629_len _ _ t R F) as [N L]. rewrite <- Et, E in L. destruct c; [congruence|discriminate].
  - intros H. destruct (decide (utf8_len (b :: s) = 0%nat)) as [E|E]; [exact E|]. exfalso.
    destruct (len_char _ E) as (r & c & t & Es & R & F & _). apply (H r c R F). exists t. exact Es.
Qed.
Lemma rfc_head r c : scalar r -> rfc3629 r c -> exists b t, c = b :: t /\ (r < 128 -> bz b = r /\ t = []) /\ (128 <= r -> 128 <= bz b).
Proof.
  intros [R _] H. destruct H as [r H|r H|r H|r H]; unfold octets; cbn [map]; eexists _, _; (split; [reflexivity|]).
  - rewrite bz_zb_small by lia. split; [auto|lia].
  - rewrite bz_zb_small by lia. split; [lia|lia].
  - rewrite bz_zb_small by lia. split; [lia|lia].
  - rewrite bz_zb_small by lia. split; [lia|lia].
Qed.
Lemma bz_eq b n : bz b = n -> b = zb n.
Proof. intros <-. symmetry. apply zb_bz. Qed.

Lemma pchar_jchars s p r v rest : head s <> Some x22 -> pchar s = Some (p, r) -> jchars r v rest -> jchars s (p ++ v) rest.
Proof.
  intros N H J. destruct s as [|b s]; [discriminate|]. cbn [pchar] in H. case_decide as D.
  - subst b. destruct s as [|e s]; [discriminate|]. case_decide as D2.
    + subst e. unfold uescape in H. destruct (hex4 s) as [[u t]|] eqn:E; [|discriminate]. apply hex4_spec in E as (ds & Q & ->).
      pose proof (quad_range _ _ Q) as UR. case_decide as D3.
      * destruct (u4 t) as [[u' t']|] eqn:E'.
        -- case_decide as D4.
           ++ injection H as <- <-. apply u4_spec in E' as (ds' & Q' & ->).
              apply (jc_pair ds u ds' u'); [assumption..| | |apply rfc_enc|assumption]; unfold high_surrogate, low_surrogate, scalar; try lia.
              f_equal. lia.
           ++ injection H as <- <-. apply (jc_lone ds u); [assumption|unfold high_surrogate, low_surrogate; lia| |assumption].
              intros Hh ds'' u'' s' -> Q''. assert (u4 (x5c :: x75 :: ds'' ++ s') = Some (u'', s')) as X by (apply u4_spec; eauto).
              rewrite E' in X. injection X as -> ->. unfold high_surrogate, low_surrogate in *. lia.
        -- injection H as <- <-. apply (jc_lone ds u); [assumption|unfold high_surrogate, low_surrogate; lia| |assumption].
           intros Hh ds'' u'' s' -> Q''. assert (u4 (x5c :: x75 :: ds'' ++ s') = Some (u'', s')) as X by (apply u4_spec; eauto). congruence.
      * injection H as <- <-. apply (jc_unit ds u); [assumption| |apply rfc_enc|assumption]; unfold scalar; try lia. reflexivity.
    + destruct (escape e) as [c|] eqn:E; [|discriminate]. injection H as <- <-. apply escape_spec in E. cbn [app]. apply jc_short; assumption.
  - case_decide as D2; [discriminate|]. destruct (utf8_len (b :: s)) as [|n] eqn:E.
    + injection H as <- <-. apply jc_stray; [apply len_stray; assumption|assumption].
    + assert (utf8_len (b :: s) <> 0%nat) as NZ by lia. destruct (len_char _ NZ) as (x & c & t & Es & R & F & Et & Ed).
      rewrite E in Et, Ed. rewrite Et, Ed in H. injection H as <- <-. rewrite Es.
      destruct (rfc_head x c R F) as (b' & t' & -> & H1 & H2). injection Es as <- Es.
      apply (jc_plain x); try assumption.
      * destruct (decide (x < 128)); [destruct H1; lia|lia].
      * intros ->. destruct H1 as [H1 _]; [lia|]. apply N. cbn. f_equal. apply bz_eq in H1. exact H1.
      * intros ->. destruct H1 as [H1 _]; [lia|]. apply D. apply bz_eq in H1. exact H1.
Qed.
Lemma pstr_jchars f s v rest : pstr f s = Some (v, rest) -> jchars s v rest.
Proof.
  revert s v. induction f as [|f IH]; intros s v H; [discriminate|]. cbn [pstr] in H. destruct s as [|b r]; [discriminate|].
  case_decide as D; [injection H as <- <-; subst; constructor|].
  destruct (pchar (b :: r)) as [[p r']|] eqn:E; [|discriminate]. destruct (pstr f r') as [[t u]|] eqn:E'; [|discriminate].
  injection H as <- <-. eapply pchar_jchars; [|exact E|apply IH; exact E']. cbn. congruence.
Qed.
Lemma pstr_step f s p r v rest : head s <> Some x22 -> pchar s = Some (p, r) -> pstr f r = Some (v, rest) -> pstr (S f) s = Some (p ++ v, rest).
Proof.
  intros N E H. destruct s as [|b s]; [discriminate|]. cbn [pstr]. rewrite decide_False by (cbn in N; congruence). rewrite E, H. reflexivity.
Qed.
Lemma jchars_pstr s v rest : jchars s v rest -> forall f, (length s <= f)%nat -> pstr f s = Some (v, rest).
Proof.
  induction 1 as [rest|r c s v rest R Lo N1 N2 F J IH|b s v rest N J IH|e c s v rest E J IH|ds u c s v rest Q R F J IH
    |ds u ds' u' c s v rest Q Q' Hh Hl F J IH|ds u s v rest Q Su Ln J IH]; intros f Hf.
  - destruct f; [cbn in Hf; lia|]. cbn [pstr]. rewrite decide_True by reflexivity. reflexivity.
  - destruct (rfc_head r c R F) as (b & t & -> & H1 & H2). destruct (rfc3629_len _ _ s R F) as [_ U].
    destruct f; [cbn in Hf; lia|]. apply (pstr_step f _ (b :: t) s).
    + cbn. intros [= ->]. destruct (decide (r < 128)); [destruct H1 as [H1 _]; [lia|]; cbn in H1; lia|]. cbn in H2. lia.
    + cbn [app] in *. cbn [pchar]. rewrite decide_False.
      2:{ intros ->. destruct (decide (r < 128)); [destruct H1 as [H1 _]; [lia|]; cbn in H1; lia|]. cbn in H2. lia. }
      rewrite decide_False by (destruct (decide (r < 128)); [destruct H1 as [H1 _]; lia|lia]).
      rewrite U. cbn [length]. change (b :: t ++ s) with ((b :: t) ++ s).
      rewrite (take_app_alt (b :: t) s), (drop_app_alt (b :: t) s) by reflexivity. reflexivity.
    + apply IH. cbn [app length] in Hf. rewrite app_length in Hf. lia.
  - destruct f; [cbn in Hf; lia|]. assert (forall n, 0 <= n < 128 -> bz b <> n) as A.
    { intros n Hn Hb. apply (N n [b]); [split; lia| |exists s; reflexivity].
      rewrite <- (octets_is [n] [b]) by (cbn; congruence). apply U1. lia. }
    assert (128 <= bz b) as A' by (pose proof (bz_range b); destruct (decide (128 <= bz b)); [assumption|exfalso; apply (A (bz b)); lia]).
    change (xef :: xbf :: xbd :: v) with (fffd ++ v). apply (pstr_step f _ fffd s).
    + cbn. intros [= ->]. cbn in A'. lia.
    + cbn [pchar]. rewrite decide_False by (intros ->; cbn in A'; lia). rewrite decide_False by lia.
      rewrite (proj2 (len_stray b s) N). reflexivity.
    + apply IH. cbn in Hf. lia.
  - destruct f; [cbn in Hf; lia|]. change (c :: v) with ([c] ++ v). apply (pstr_step f _ [c] s); [discriminate| |apply IH; cbn in Hf; lia].
    cbn [pchar]. rewrite decide_True by reflexivity. apply escape_spec in E. rewrite decide_False, E; [reflexivity|].
    intros ->. discriminate E.
  - destruct f; [cbn in Hf; lia|]. apply (pstr_step f _ c s); [discriminate| |apply IH; cbn in Hf; rewrite app_length in Hf; lia].
    cbn [pchar]. rewrite !decide_True by reflexivity. unfold uescape.
    rewrite (proj2 (hex4_spec (ds ++ s) u s)) by eauto. rewrite decide_False by (unfold scalar in R; lia).
    apply (rfc_enc u c R) in F as ->. reflexivity.
  - destruct f; [cbn in Hf; lia|]. apply (pstr_step f _ c s); [discriminate| |apply IH; cbn in Hf; rewrite app_length in Hf; cbn in Hf; rewrite app_length in Hf; lia].
    cbn [pchar]. rewrite !decide_True by reflexivity. unfold uescape.
    rewrite (proj2 (hex4_spec _ u (x5c :: x75 :: ds' ++ s))) by eauto. unfold high_surrogate, low_surrogate in *.
    rewrite decide_True by lia. rewrite (proj2 (u4_spec _ u' s)) by eauto. rewrite decide_True by lia.
    apply rfc_enc in F as ->; [|unfold scalar; lia]. do 3 f_equal. lia.
  - destruct f; [cbn in Hf; lia|]. change (xef :: xbf :: xbd :: v) with (fffd ++ v).
    apply (pstr_step f _ fffd s); [discriminate| |apply IH; cbn in Hf; rewrite app_length in Hf; lia].
    cbn [pchar]. rewrite !decide_True by reflexivity. unfold uescape.
    rewrite (proj2 (hex4_spec _ u s)) by eauto. unfold high_surrogate, low_surrogate in *. rewrite decide_True by lia.
    destruct (u4 s) as [[u' s']|] eqn:E; [|reflexivity]. rewrite decide_False; [reflexivity|]. intros [D1 D2].
    apply u4_spec in E as (ds' & Q' & ->). apply (Ln ltac:(lia) ds' u' s' eq_refl Q'). lia.
Qed.

(** What follows the closing quotation mark does not matter. *)
Lemma len_quote b u t t' : utf8_len (b :: u ++ x22 :: t) = 0%nat -> utf8_len (b :: u ++ x22 :: t') = 0%nat.
Proof.
  destruct u as [|c [|d [|e u]]]; cbn [app utf8_len]; auto.
  - assert (forall lo, 128 <= lo -> forall hi, cont lo hi x22 = false) as A by (intros lo H hi; apply bool_decide_eq_false; cbn; lia).
    rewrite !A by (repeat case_decide; lia). cbn [andb]. destruct t as [|? [|? ?]], t' as [|? [|? ?]]; auto.
  - assert (forall hi, cont 128 hi x22 = false) as A by (intros hi; apply bool_decide_eq_false; cbn; lia).
    rewrite !A. rewrite ?andb_false_r, ?andb_false_l. cbn [andb]. rewrite ?andb_false_r. destruct t as [|? ?], t' as [|? ?]; rewrite ?andb_false_r; auto.
Qed.
Lemma u4_quote u t t' w s : u4 (u ++ x22 :: t) = Some (w, s) -> exists s', u4 (u ++ x22 :: t') = Some (w, s').
Proof.
  destruct u as [|a [|b [|c [|d [|e [|f u]]]]]]; cbn [app u4 hex4].
  - destruct t as [|c t]; [discriminate|]. case_decide as D; [destruct D as [[=] _]|discriminate].
  - case_decide as D; [destruct D as [_ [=]]|discriminate].
  - case_decide; [|discriminate]. destruct t as [|? [|? [|? ?]]]; discriminate.
  - case_decide; [|discriminate]. destruct t as [|? [|? ?]]; try discriminate. destruct (unhexdigit c); discriminate.
  - case_decide; [|discriminate]. destruct t as [|? ?]; try discriminate. destruct (unhexdigit c), (unhexdigit d); discriminate.
  - case_decide; [|discriminate]. destruct (unhexdigit c), (unhexdigit d), (unhexdigit e); discriminate.
  - case_decide; [|discriminate]. destruct (unhexdigit c), (unhexdigit d), (unhexdigit e), (unhexdigit f); try discriminate. intros [= -> _]. eauto.
Qed.
Lemma jchars_rest s v rest : jchars s v rest -> exists u, s = u ++ x22 :: rest /\ forall rest', jchars (u ++ x22 :: rest') v rest'.
Proof.
  induction 1 as [rest|r c s v rest R Lo N1 N2 F J IH|b s v rest N J IH|e c s v rest E J IH|ds u c s v rest Q R F J IH
    |ds u ds' u' c s v rest Q Q' Hh Hl F J IH|ds u s v rest Q Su Ln J IH].
  - exists []. split; [reflexivity|]. intros rest'. constructor.
  - destruct IH as (u & -> & IH). exists (c ++ u). rewrite <- app_assoc. split; [reflexivity|]. intros rest'. rewrite <- app_assoc.
    apply (jc_plain r); auto.
  - destruct IH as (u & -> & IH). exists (b :: u). split; [reflexivity|]. intros rest'. cbn [app]. apply jc_stray; [|auto].
    apply len_stray. apply len_stray in N. apply (len_quote b u rest). exact N.
  - destruct IH as (u & -> & IH). exists (x5c :: e :: u). split; [reflexivity|]. intros rest'. cbn [app]. apply jc_short; auto.
  - destruct IH as (w & -> & IH). exists (x5c :: x75 :: ds ++ w). cbn [app]. rewrite <- app_assoc. split; [reflexivity|].
    intros rest'. rewrite <- app_assoc. apply (jc_unit ds u); auto.
  - destruct IH as (w & -> & IH). exists (x5c :: x75 :: ds ++ x5c :: x75 :: ds' ++ w). split.
    + cbn [app]. rewrite <- !app_assoc. cbn [app]. rewrite <- !app_assoc. reflexivity.
    + intros rest'. cbn [app]. rewrite <- !app_assoc. cbn [app]. rewrite <- !app_assoc. apply (jc_pair ds u ds' u'); auto.
  - destruct IH as (w & -> & IH). exists (x5c :: x75 :: ds ++ w). cbn [app]. rewrite <- app_assoc. split; [reflexivity|].
    intros rest'. rewrite <- app_assoc. apply (jc_lone ds u); auto. intros Hh ds' u' s' Es Q'.
    assert (u4 (w ++ x22 :: rest') = Some (u', s')) as X by (apply u4_spec; eauto).
    apply (u4_quote _ _ rest) in X as (s'' & X). apply u4_spec in X as (ds'' & Q'' & X). exact (Ln Hh ds'' u' s'' X Q'').
Qed.
Lemma pstring_spec s v rest : pstring s = Some (v, rest) <-> exists k, jstring k v /\ s = k ++ rest.
Proof.
  split.
  - destruct s as [|b r]; [discriminate|]. cbn [pstring]. case_decide as D; [|discriminate]. subst b. intros H.
    apply pstr_jchars, jchars_rest in H as (u & -> & H). exists (x22 :: u ++ [x22]). split; [eexists; split; [reflexivity|apply H]|].
    cbn [app]. rewrite <- app_assoc. reflexivity.
  - intros (k & (t & -> & J) & ->). apply jchars_rest in J as (u & -> & J). cbn [app pstring]. rewrite decide_True by reflexivity.
    apply jchars_pstr; [|reflexivity]. rewrite <- app_assoc. apply J.
Qed.
Lemma jstring_shape k v : jstring k v -> exists t, k = x22 :: t /\ (1 <= length t)%nat.
Proof. intros (t & -> & J). exists t. split; [reflexivity|]. apply jchars_rest in J as (u & -> & _). rewrite app_length. cbn. lia. Qed.

(** White space. *)
Lemma is_ws_spec b : is_ws b = true <-> b = x20 \/ b = x09 \/ b = x0a \/ b = x0d.
Proof. apply bool_decide_eq_true. Qed.
Lemma skip_split s : exists w, blank w /\ s = w ++ skip_ws s /\ (forall b, head (skip_ws s) = Some b -> is_ws b = false).
Proof.
  induction s as [|b s (w & W & E & H)]; [exists []; repeat split; [constructor|discriminate]|].
  cbn [skip_ws]. destruct (is_ws b) eqn:B.
  - exists (b :: w). split; [constructor; [apply is_ws_spec; exact B|exact W]|]. split; [cbn; congruence|exact H].
  - exists []. split; [constructor|]. split; [reflexivity|]. cbn. congruence.
Qed.
Lemma skip_blank w s : blank w -> skip_ws (w ++ s) = skip_ws s.
Proof. induction 1 as [|b w B _ IH]; [reflexivity|]. cbn [app skip_ws]. rewrite (proj2 (is_ws_spec b) B). exact IH. Qed.
Lemma skip_none s : (forall b, head s = Some b -> is_ws b = false) -> skip_ws s = s.
Proof. destruct s as [|b r]; [reflexivity|]. intros H. cbn. rewrite (H b eq_refl). reflexivity. Qed.
Lemma skip_nil s : skip_ws s = [] <-> blank s.
Proof.
  split.
  - intros E. destruct (skip_split s) as (w & W & Es & _). rewrite E, app_nil_r in Es. subst. exact W.
  - intros B. rewrite <- (app_nil_r s). rewrite skip_blank by exact B. reflexivity.
Qed.

(** Numbers. *)
Definition stops (s : bytes) : Prop := forall b, head s = Some b -> is_digit b \/ b = x2e \/ b = x65 \/ b = x45 -> False.
Lemma digits_spec s d r : digits s = (d, r) -> s = d ++ r /\ Forall is_digit d /\ (forall b, head r = Some b -> ~ is_digit b).
Proof.
  revert d r. induction s as [|b s IH]; intros d r; cbn [digits].
  - intros [= <- <-]. repeat split; [constructor|discriminate].
  - destruct (is_dig b) eqn:B.
    + destruct (digits s) as [d' r'] eqn:E. intros [= <- <-]. destruct (IH _ _ eq_refl) as (-> & F & H).
      repeat split; [constructor; [apply is_dig_spec; exact B|exact F]|exact H].
    + intros [= <- <-]. repeat split; [constructor|]. cbn. intros x [= <-] Hx. apply is_dig_spec in Hx. congruence.
Qed.
Lemma pnum_sound s n r : pnum s = Some (n, r) -> jnumber n /\ s = n ++ r.
Proof.
  unfold pnum. destruct (psign s) as [sg s1] eqn:E1.
  assert (s = sg ++ s1 /\ (sg = [] \/ sg = [x2d])) as [-> Hsg].
  { unfold psign in E1. destruct s as [|b s]; [injection E1 as <- <-; auto|]. case_decide as D; injection E1 as <- <-; subst; auto. }
  destruct (pint s1) as [[i s2]|] eqn:E2; [|discriminate].
  assert (s1 = i ++ s2 /\ (i = [x30] \/ digit_run i /\ head i <> Some x30)) as [-> Hi].
  { unfold pint in E2. destruct s1 as [|b s]; [discriminate|]. case_decide as D; [injection E2 as <- <-; subst; auto|].
    destruct (is_dig b) eqn:B; [|discriminate]. assert (digits (b :: s) = (i, s2)) as E2' by congruence. clear E2. rename E2' into E2. destruct (digits_spec _ _ _ E2) as (Es & F & _). split; [exact Es|].
    right. cbn [digits] in E2. rewrite B in E2. destruct (digits s) as [d' r']. injection E2 as <- <-. split; [split; [discriminate|exact F]|]. cbn. congruence. }
  destruct (pfrac s2) as [[fr s3]|] eqn:E3; [|discriminate].
  assert (s2 = fr ++ s3 /\ (fr = [] \/ exists d, fr = x2e :: d /\ digit_run d)) as [-> Hfr].
  { unfold pfrac in E3. destruct s2 as [|b s]; [injection E3 as <- <-; auto|]. case_decide as D; [|injection E3 as <- <-; auto]. subst b.
    destruct (digits s) as [d r'] eqn:Ed. destruct (digits_spec _ _ _ Ed) as (-> & F & _). destruct d as [|x d]; [discriminate|].
    injection E3 as <- <-. split; [reflexivity|]. right. exists (x :: d). split; [reflexivity|]. split; [discriminate|exact F]. }
  destruct (pexp s3) as [[ex s4]|] eqn:E4; [|discriminate]. intros [= <- <-].
  assert (s3 = ex ++ s4 /\ (ex = [] \/ exists e es d, ex = e :: es ++ d /\ (e = x65 \/ e = x45) /\ (es = [] \/ es = [x2b] \/ es = [x2d]) /\ digit_run d)) as [-> Hex].
  { unfold pexp in E4. destruct s3 as [|e s]; [injection E4 as <- <-; auto|]. case_decide as D; [|injection E4 as <- <-; auto].
    assert (exists es t, match s with c :: r' => if decide (c = x2b \/ c = x2d) then ([c], r') else ([], s) | [] => ([], s) end = (es, t) /\
       s = es ++ t /\ (es = [] \/ es = [x2b] \/ es = [x2d])) as (es & t & Et & -> & Hes).
    { destruct s as [|c r']; [eauto 6|]. case_decide as Dc; [destruct Dc as [-> | ->]|]; eexists _, _; (split; [reflexivity|]); auto. }
    rewrite Et in E4. destruct (digits t) as [d r'] eqn:Ed. destruct (digits_spec _ _ _ Ed) as (-> & F & _). destruct d as [|x d]; [discriminate|].
    injection E4 as <- <-. cbn [app]. rewrite <- app_assoc. split; [reflexivity|]. right. exists e, es, (x :: d). repeat split; auto; discriminate. }
  split; [exists sg, i, fr, ex; auto 6|]. rewrite <- !app_assoc. reflexivity.
Qed.
Lemma stops_digit r : stops r -> forall b, head r = Some b -> is_dig b = false.
Proof. intros H b Hb. destruct (is_dig b) eqn:E; [|reflexivity]. exfalso. apply (H b Hb). left. apply is_dig_spec. exact E. Qed.
Lemma digit_byte b : is_digit b -> b <> x2d /\ b <> x2b /\ b <> x2e /\ b <> x65 /\ b <> x45 /\ b <> x22 /\ b <> x5b /\ b <> x7b /\ b <> x6e /\ b <> x74 /\ b <> x66 /\ is_ws b = false /\ b <> x5d /\ b <> x7d.
Proof.
  unfold is_digit. intros H. repeat (split; [intros ->; cbn in H; lia|]). split; [|split; intros ->; cbn in H; lia].
  destruct (is_ws b) eqn:E; [|reflexivity]. apply is_ws_spec in E as [-> | [-> | [-> | ->]]]; cbn in H; lia.
Qed.
Lemma run_head d : digit_run d -> exists b t, d = b :: t /\ is_digit b.
Proof. intros [N F]. destruct d as [|b t]; [congruence|]. inversion F. eauto. Qed.
Lemma pnum_complete n r : jnumber n -> stops r -> pnum (n ++ r) = Some (n, r).
Proof.
  intros (sg & i & fr & ex & -> & Hsg & Hi & Hfr & Hex) S.
  assert (exists b t, i = b :: t /\ is_digit b) as (bi & ti & Ei & Bi).
  { destruct Hi as [->|[Hi _]]; [exists x30, []; split; [reflexivity|unfold is_digit; cbn; lia]|apply run_head; exact Hi]. }
  assert (stops (ex ++ r) \/ exists b t, ex = b :: t /\ (b = x65 \/ b = x45)) as Sx.
  { destruct Hex as [->|(e & es & d & -> & He & _)]; [left; exact S|right; eauto]. }
  assert (forall b, head (ex ++ r) = Some b -> is_dig b = false /\ b <> x2e) as S1.
  { destruct Sx as [Sx|(b & t & -> & Hb)]; intros c Hc.
    - split; [apply (stops_digit _ Sx); exact Hc|]. intros ->. apply (Sx _ Hc). auto.
    - cbn in Hc. injection Hc as <-. destruct Hb as [-> | ->]; split; [reflexivity|discriminate|reflexivity|discriminate]. }
  assert (forall b, head (fr ++ ex ++ r) = Some b -> is_dig b = false) as S2.
  { destruct Hfr as [->|(d & -> & _)]; [intros b Hb; apply S1; exact Hb|]. intros b [= <-]. reflexivity. }
  assert (pexp (ex ++ r) = Some (ex, r)) as X4.
  { destruct Hex as [->|(e & es & d & -> & He & Hes & Hd)].
    - cbn [app]. destruct r as [|b r]; [reflexivity|]. cbn [pexp]. rewrite decide_False; [reflexivity|]. intros D. apply (S b eq_refl). tauto.
    - cbn [app pexp]. rewrite decide_True by exact He. rewrite <- app_assoc. destruct (run_head d Hd) as (b & t & Ed & Bd).
      pose proof (digits_app d r (proj2 Hd) (stops_digit _ S)) as Dd.
      destruct Hes as [-> | [-> | ->]]; cbn [app].
      + rewrite Ed in *. cbn [app] in *. rewrite decide_False by (apply digit_byte in Bd; tauto). rewrite Dd. reflexivity.
      + rewrite decide_True by auto. rewrite Dd. rewrite Ed. reflexivity.
      + rewrite decide_True by auto. rewrite Dd. rewrite Ed. reflexivity. }
  assert (pfrac (fr ++ ex ++ r) = Some (fr, ex ++ r)) as X3.
  { destruct Hfr as [->|(d & -> & Hd)].
    - cbn [app]. destruct (ex ++ r) as [|b t]; [reflexivity|]. cbn [pfrac]. rewrite decide_False; [reflexivity|]. apply (S1 b eq_refl).
    - cbn [app pfrac]. rewrite decide_True by reflexivity. rewrite (digits_app d (ex ++ r) (proj2 Hd)); [|intros b Hb; apply S1; exact Hb].
      destruct (run_head d Hd) as (b & t & -> & _). reflexivity. }
  assert (pint (i ++ fr ++ ex ++ r) = Some (i, fr ++ ex ++ r)) as X2.
  { destruct Hi as [->|[Hi Nz]]; [reflexivity|]. pose proof (digits_app i _ (proj2 Hi) S2) as Di. rewrite Ei in *. cbn [app] in *.
    unfold pint. rewrite decide_False by (cbn in Nz; congruence). rewrite (proj2 (is_dig_spec bi) Bi). f_equal. exact Di. }
  assert (psign (sg ++ i ++ fr ++ ex ++ r) = (sg, i ++ fr ++ ex ++ r)) as X1.
  { destruct Hsg as [-> | ->]; [|reflexivity]. rewrite Ei. cbn [app psign]. rewrite decide_False; [reflexivity|]. apply digit_byte in Bi; tauto. }
  unfold pnum. rewrite <- !app_assoc. rewrite X1, X2, X3, X4. reflexivity.
Qed.

(** Values. *)
Lemma eat_spec p s r : eat p s = Some r <-> s = p ++ r.
Proof.
  unfold eat. split.
  - case_decide as D; [|discriminate]. intros [= <-]. rewrite <- D at 1. symmetry. apply take_drop.
  - intros ->. rewrite take_app_alt, drop_app_alt by reflexivity. rewrite decide_True by reflexivity. reflexivity.
Qed.
Lemma eats_spec p j s j' r : eats p j s = Some (j', r) <-> j' = j /\ s = p ++ r.
Proof.
  unfold eats. split.
  - destruct (eat p s) as [t|] eqn:E; [|discriminate]. apply eat_spec in E as ->. intros [= <- <-]. auto.
  - intros [-> ->]. rewrite (proj2 (eat_spec p (p ++ r) r)) by reflexivity. reflexivity.
Qed.
Definition val_sound (f : nat) : Prop := forall s j r, pval f s = Some (j, r) -> exists w t, blank w /\ jvalue t j /\ s = w ++ t ++ r.
Definition arr_sound (f : nat) : Prop := forall s l r, parr f s = Some (l, r) -> exists t, jvalues t l /\ s = t ++ x5d :: r.
Definition obj_sound (f : nat) : Prop := forall s l r, pobj f s = Some (l, r) -> exists t, jmembers t l /\ s = t ++ x7d :: r.
Lemma pval_sound f : val_sound f /\ arr_sound f /\ obj_sound f.
Proof.
  induction f as [|f (IV & IA & IO)]; [split; [|split]; intros ? ? ?; discriminate|]. split; [|split].
  - intros s j r H. cbn [pval] in H. destruct (skip_split s) as (w & W & Es & _).
    destruct (skip_ws s) as [|b t]; [discriminate|]. rewrite Es. exists w.
    assert (forall u, jvalue u j /\ b :: t = u ++ r -> exists t0, blank w /\ jvalue t0 j /\ w ++ b :: t = w ++ t0 ++ r) as K.
    { intros u [J ->]. exists u. auto. }
    case_decide as D1.
    { destruct (pstring (b :: t)) as [[v r']|] eqn:E; [|discriminate]. injection H as <- <-. apply pstring_spec in E as (k & J & E).
      apply (K k). split; [constructor; exact J|exact E]. }
    case_decide as D2.
    { subst b. case_decide as D3.
      - injection H as <- <-. destruct (skip_split t) as (w' & W' & E' & _). destruct (skip_ws t) as [|c u]; [discriminate|].
        cbn in D3. injection D3 as ->. cbn [drop] in K |- *. apply (K (x5b :: w' ++ [x5d])). split; [constructor; exact W'|].
        rewrite E'. cbn [app]. rewrite <- app_assoc. reflexivity.
      - destruct (parr f t) as [[l r']|] eqn:E; [|discriminate]. injection H as <- <-. apply IA in E as (u & J & ->).
        apply (K (x5b :: u ++ [x5d])). split; [constructor; exact J|]. cbn [app]. rewrite <- app_assoc. reflexivity. }
    case_decide as D4.
    { subst b. case_decide as D3.
      - injection H as <- <-. destruct (skip_split t) as (w' & W' & E' & _). destruct (skip_ws t) as [|c u]; [discriminate|].
        cbn in D3. injection D3 as ->. cbn [drop] in K |- *. apply (K (x7b :: w' ++ [x7d])). split; [constructor; exact W'|].
        rewrite E'. cbn [app]. rewrite <- app_assoc. reflexivity.
      - destruct (pobj f t) as [[l r']|] eqn:E; [|discriminate]. injection H as <- <-. apply IO in E as (u & J & ->).
        apply (K (x7b :: u ++ [x7d])). split; [constructor; exact J|]. cbn [app]. rewrite <- app_assoc. reflexivity. }
    case_decide as D5; [apply eats_spec in H as [-> ->]; subst b; apply (K (bs "null")); split; [constructor|reflexivity]|].
    case_decide as D6; [apply eats_spec in H as [-> ->]; subst b; apply (K (bs "true")); split; [constructor|reflexivity]|].
    case_decide as D7; [apply eats_spec in H as [-> ->]; subst b; apply (K (bs "false")); split; [constructor|reflexivity]|].
    destruct (pnum (b :: t)) as [[n r']|] eqn:E; [|discriminate]. injection H as <- <-. apply pnum_sound in E as [J E].
    apply (K n). split; [constructor; exact J|exact E].
  - intros s l r H. cbn [parr] in H. destruct (pval f s) as [[j r1]|] eqn:E; [|discriminate].
    apply IV in E as (w & t & W & J & ->). destruct (skip_split r1) as (w' & W' & E1 & _). destruct (skip_ws r1) as [|b r2]; [discriminate|].
    subst r1. case_decide as D1.
    + injection H as <- <-. subst b. exists (w ++ t ++ w'). split; [constructor; assumption|]. rewrite <- !app_assoc. reflexivity.
    + case_decide as D2; [|discriminate]. destruct (parr f r2) as [[l' r3]|] eqn:E; [|discriminate]. injection H as <- <-. subst b.
      apply IA in E as (u & Ju & ->). exists (w ++ t ++ w' ++ x2c :: u). split; [constructor; assumption|]. rewrite <- !app_assoc. reflexivity.
  - intros s l r H. cbn [pobj] in H. destruct (skip_split s) as (w1 & W1 & Es & _). rewrite Es. clear Es.
    destruct (pstring (skip_ws s)) as [[key r1]|] eqn:E; [|discriminate]. apply pstring_spec in E as (k & Jk & ->).
    destruct (skip_split r1) as (w2 & W2 & E1 & _). rewrite E1. clear E1.
    destruct (eat [x3a] (skip_ws r1)) as [r2|] eqn:E; [|discriminate]. apply eat_spec in E as ->.
    destruct (pval f r2) as [[j r3]|] eqn:E; [|discriminate]. apply IV in E as (w3 & t & W3 & J & ->).
    destruct (skip_split r3) as (w4 & W4 & E3 & _). destruct (skip_ws r3) as [|b r4]; [discriminate|]. subst r3. case_decide as D1.
    + injection H as <- <-. subst b. exists (w1 ++ k ++ w2 ++ x3a :: w3 ++ t ++ w4). split; [constructor; assumption|].
      repeat (rewrite <- !app_assoc; cbn [app]). reflexivity.
    + case_decide as D2; [|discriminate]. destruct (pobj f r4) as [[l' r5]|] eqn:E; [|discriminate]. injection H as <- <-. subst b.
      apply IO in E as (u & Ju & ->). exists (w1 ++ k ++ w2 ++ x3a :: w3 ++ t ++ w4 ++ x2c :: u). split; [constructor; assumption|].
      repeat (rewrite <- !app_assoc; cbn [app]). reflexivity.
Qed.

(** The first character of a value decides its kind. *)
Lemma jvalue_head s j : jvalue s j -> exists b t, s = b :: t /\ is_ws b = false /\ b <> x5d /\ b <> x7d /\
  (forall n, j = JNum n -> b <> x22 /\ b <> x5b /\ b <> x7b /\ b <> x6e /\ b <> x74 /\ b <> x66).
Proof.
  assert (forall b t, is_ws b = false -> b <> x5d -> b <> x7d -> (forall n, j <> JNum n) -> s = b :: t ->
    exists b t, s = b :: t /\ is_ws b = false /\ b <> x5d /\ b <> x7d /\
      (forall n, j = JNum n -> b <> x22 /\ b <> x5b /\ b <> x7b /\ b <> x6e /\ b <> x74 /\ b <> x66)) as K.
  { intros b t H1 H2 H3 H4 ->. exists b, t. repeat split; auto; exfalso; eapply H4; eauto. }
  destruct 1 as [| | |n Hn|s v (t & -> & _)|w W|s l J|w W|s l J];
    try (eapply K; [| | | |reflexivity]; [reflexivity|discriminate|discriminate|discriminate]).
  clear K. destruct Hn as (sg & i & fr & ex & -> & Hsg & Hi & _).
  assert (exists b t, i = b :: t /\ is_digit b) as (b & t & -> & B).
  { destruct Hi as [->|[Hi _]]; [exists x30, []; split; [reflexivity|unfold is_digit; cbn; lia]|apply run_head; exact Hi]. }
  destruct Hsg as [-> | ->]; cbn [app].
  - apply digit_byte in B. exists b, (t ++ fr ++ ex). repeat split; tauto.
  - eexists _, _. split; [reflexivity|]. repeat split; discriminate.
Qed.
Definition follow (s : bytes) : Prop := forall b, head s = Some b -> is_ws b = true \/ b = x2c \/ b = x5d \/ b = x7d.
Lemma follow_stops s : follow s -> stops s.
Proof.
  intros F b Hb D. destruct (F b Hb) as [W|W]; [apply is_ws_spec in W as [-> | [-> | [-> | ->]]]|destruct W as [-> | [-> | ->]]];
    destruct D as [D|[D|[D|D]]]; try discriminate D; unfold is_digit in D; cbn in D; lia.
Qed.
Lemma blank_follow w s : blank w -> follow s -> follow (w ++ s).
Proof. destruct 1 as [|b w B W]; [auto|]. intros _ c [= <-]. left. apply is_ws_spec. exact B. Qed.
Lemma follow_cons b s : b = x2c \/ b = x5d \/ b = x7d -> follow (b :: s).
Proof. intros H c [= <-]. auto. Qed.
Scheme jvalue_mind := Induction for jvalue Sort Prop
  with jvalues_mind := Induction for jvalues Sort Prop
  with jmembers_mind := Induction for jmembers Sort Prop.
Combined Scheme json_mind from jvalue_mind, jvalues_mind, jmembers_mind.
Lemma jvalues_head s l : jvalues s l -> exists b t, skip_ws s = b :: t /\ b <> x5d.
Proof.
  destruct 1 as [w s j w' W J W'|w s j w' t l W J W' Jt]; rewrite skip_blank by exact W; apply jvalue_head in J as (b & u & -> & Hw & N & _);
    cbn [app skip_ws]; rewrite Hw; eauto.
Qed.
Lemma jmembers_head s l : jmembers s l -> exists b t, skip_ws s = b :: t /\ b <> x7d.
Proof.
  destruct 1 as [w1 k key w2 w3 s j w4 W1 Jk W2 W3 J W4|w1 k key w2 w3 s j w4 t l W1 Jk W2 W3 J W4 Jt]; rewrite skip_blank by exact W1;
    apply jstring_shape in Jk as (u & -> & _); eexists _, _; (split; [reflexivity|discriminate]).
Qed.
Lemma skip_app s b t r : skip_ws s = b :: t -> skip_ws (s ++ r) = b :: t ++ r.
Proof.
  induction s as [|c s IH]; [discriminate|]. cbn [app skip_ws]. destruct (is_ws c); [exact IH|]. intros [= -> ->]. reflexivity.
Qed.
Lemma pval_complete :
  (forall s j, jvalue s j -> forall f w r, blank w -> follow r -> (2 * length s < f)%nat -> pval f (w ++ s ++ r) = Some (j, r)) /\
  (forall s l, jvalues s l -> forall f r, (2 * length s + 1 < f)%nat -> parr f (s ++ x5d :: r) = Some (l, r)) /\
  (forall s l, jmembers s l -> forall f r, (2 * length s + 1 < f)%nat -> pobj f (s ++ x7d :: r) = Some (l, r)).
Proof.
  apply json_mind.
  - intros f w r W F Hf. destruct f; [lia|]. cbn [pval]. rewrite skip_blank by exact W. reflexivity.
  - intros f w r W F Hf. destruct f; [lia|]. cbn [pval]. rewrite skip_blank by exact W. reflexivity.
  - intros f w r W F Hf. destruct f; [lia|]. cbn [pval]. rewrite skip_blank by exact W. reflexivity.
  - intros n J f w r W F Hf. destruct f; [lia|]. cbn [pval]. rewrite skip_blank by exact W.
    destruct (jvalue_head n (JNum n) (jv_number n J)) as (b & t & E & Hw & _ & _ & N). specialize (N n eq_refl).
    pose proof (pnum_complete n r J (follow_stops r F)) as P. rewrite E in P |- *. cbn [app] in P |- *. cbn [skip_ws]. rewrite Hw. rewrite !decide_False by tauto. rewrite P. reflexivity.
  - intros s v J f w r W F Hf. destruct f; [lia|]. cbn [pval]. rewrite skip_blank by exact W.
    pose proof (proj2 (pstring_spec (s ++ r) v r) ltac:(eauto)) as P. apply jstring_shape in J as (t & -> & _). cbn [app] in P |- *.
    cbn [skip_ws]. change (is_ws x22) with false. cbv iota. rewrite decide_True by reflexivity. rewrite P. reflexivity.
  - intros w' W' f w r W F Hf. destruct f; [lia|]. cbn [pval]. rewrite skip_blank by exact W. cbn [app skip_ws]. change (is_ws x5b) with false. cbv iota.
    rewrite decide_False by discriminate. rewrite decide_True by reflexivity. rewrite <- app_assoc. rewrite skip_blank by exact W'. reflexivity.
  - intros s l J IH f w r W F Hf. destruct f; [lia|]. cbn [pval]. rewrite skip_blank by exact W. cbn [app skip_ws]. change (is_ws x5b) with false. cbv iota.
    rewrite decide_False by discriminate. rewrite decide_True by reflexivity. rewrite <- app_assoc. cbn [app].
    destruct (jvalues_head _ _ J) as (b & t & E & N). rewrite (skip_app _ _ _ _ E). rewrite decide_False by (cbn; congruence).
    rewrite IH; [reflexivity|]. cbn [length] in Hf. rewrite app_length in Hf. cbn [length] in Hf. lia.
  - intros w' W' f w r W F Hf. destruct f; [lia|]. cbn [pval]. rewrite skip_blank by exact W. cbn [app skip_ws]. change (is_ws x7b) with false. cbv iota.
    rewrite !decide_False by discriminate. rewrite decide_True by reflexivity. rewrite <- app_assoc. rewrite skip_blank by exact W'. reflexivity.
  - intros s l J IH f w r W F Hf. destruct f; [lia|]. cbn [pval]. rewrite skip_blank by exact W. cbn [app skip_ws]. change (is_ws x7b) with false. cbv iota.
    rewrite !(decide_False (P := x7b = _)) by discriminate. rewrite decide_True by reflexivity. rewrite <- app_assoc. cbn [app].
    destruct (jmembers_head _ _ J) as (b & t & E & N). rewrite (skip_app _ _ _ _ E). rewrite decide_False by (cbn; congruence).
    rewrite IH; [reflexivity|]. cbn [length] in Hf. rewrite app_length in Hf. cbn [length] in Hf. lia.
  - intros w s j w' W J IH W' f r Hf. destruct f; [lia|]. cbn [parr]. rewrite <- !app_assoc. rewrite IH; [|exact W|apply blank_follow; [exact W'|apply follow_cons; auto]|].
    + rewrite skip_blank by exact W'. reflexivity.
    + rewrite !app_length in Hf. lia.
  - intros w s j w' t l W J IH W' Jt IHt f r Hf. destruct f; [lia|]. cbn [parr]. rewrite <- !app_assoc. cbn [app].
    rewrite !app_length in Hf. cbn [length] in Hf.
    rewrite IH; [|exact W|apply blank_follow; [exact W'|apply follow_cons; auto]|lia].
    rewrite skip_blank by exact W'. cbn [skip_ws]. change (is_ws x2c) with false. cbv iota. rewrite decide_False by discriminate. rewrite decide_True by reflexivity.
    destruct (jvalue_head _ _ J) as (b & u & -> & _). cbn [length] in Hf. rewrite IHt by lia. reflexivity.
  - intros w1 k key w2 w3 s j w4 W1 Jk W2 W3 J IH W4 f r Hf. destruct f; [lia|]. cbn [pobj]. repeat (rewrite <- !app_assoc; cbn [app]).
    rewrite skip_blank by exact W1. repeat (rewrite ?app_length in Hf; cbn [length] in Hf).
    rewrite (skip_none (k ++ _)). 2:{ apply jstring_shape in Jk as (t & -> & _). intros b [= <-]. reflexivity. }
    rewrite (proj2 (pstring_spec (k ++ w2 ++ x3a :: w3 ++ s ++ w4 ++ x7d :: r) key _)) by eauto.
    rewrite skip_blank by exact W2. cbn [skip_ws]. change (is_ws x3a) with false. cbv iota.
    rewrite (proj2 (eat_spec [x3a] (x3a :: w3 ++ s ++ w4 ++ x7d :: r) _)) by reflexivity.
    rewrite IH; [|exact W3|apply blank_follow; [exact W4|apply follow_cons; auto]|lia]. rewrite skip_blank by exact W4. reflexivity.
  - intros w1 k key w2 w3 s j w4 t l W1 Jk W2 W3 J IH W4 Jt IHt f r Hf. destruct f; [lia|]. cbn [pobj]. repeat (rewrite <- !app_assoc; cbn [app]).
    rewrite skip_blank by exact W1. repeat (rewrite ?app_length in Hf; cbn [length] in Hf).
    rewrite (skip_none (k ++ _)). 2:{ apply jstring_shape in Jk as (u & -> & _). intros b [= <-]. reflexivity. }
    rewrite (proj2 (pstring_spec (k ++ w2 ++ x3a :: w3 ++ s ++ w4 ++ x2c :: t ++ x7d :: r) key _)) by eauto.
    rewrite skip_blank by exact W2. cbn [skip_ws]. change (is_ws x3a) with false. cbv iota.
    rewrite (proj2 (eat_spec [x3a] (x3a :: w3 ++ s ++ w4 ++ x2c :: t ++ x7d :: r) _)) by reflexivity.
    rewrite IH; [|exact W3|apply blank_follow; [exact W4|apply follow_cons; auto]|lia].
    rewrite skip_blank by exact W4. cbn [skip_ws]. change (is_ws x2c) with false. cbv iota. rewrite decide_False by discriminate. rewrite decide_True by reflexivity.
    rewrite IHt by lia. reflexivity.
Qed.
Lemma levels_depth : forall j n, 0 <= n -> levels n j <-> depth j <= n.
Proof.
  fix IH 1. intros [|b|x|s|l|l] n Hn; try (split; [intros _; cbn [depth]; lia|intros _; constructor]).
  - assert (Forall (fun j => forall n, 0 <= n -> levels n j <-> depth j <= n) l) as F by (induction l; constructor; auto). clear IH.
    rewrite depth_arr by exact Hn. rewrite Forall_forall in F. split.
    + intros L. inversion L as [| | | |? ? P Q|]; subst. split; [exact P|]. apply Forall_forall. intros j Hj. apply F; [exact Hj|lia|auto].
    + intros [P Q]. constructor; [exact P|]. intros j Hj. apply F; [exact Hj|lia|]. rewrite Forall_forall in Q. auto.
  - assert (Forall (fun kv : bytes * json => forall n, 0 <= n -> levels n (snd kv) <-> depth (snd kv) <= n) l) as F by (induction l as [|[k j] l]; constructor; auto). clear IH.
    rewrite depth_obj by exact Hn. rewrite Forall_forall in F. split.
    + intros L. inversion L as [| | | | |? ? P Q]; subst. split; [exact P|]. apply Forall_forall. intros [k j] Hj. apply F; [exact Hj|lia|cbn; eauto].
    + intros [P Q]. constructor; [exact P|]. intros k j Hj. apply (F (k, j)); [exact Hj|lia|]. rewrite Forall_forall in Q. exact (Q (k, j) Hj).
Qed.
Lemma parse_json_exact s j : parse_json s = Some j <-> json_text s j.
Proof.
  unfold parse_json. split.
  - destruct (pval _ s) as [[j' r]|] eqn:E; [|discriminate]. destruct (skip_ws r) as [|b t] eqn:Er; [|discriminate]. destruct (decide _) as [D|D]; [|discriminate]. intros [= <-].
    apply pval_sound in E as (w & t & W & J & ->). apply skip_nil in Er. exists w, t, r. split_and!; auto. apply levels_depth; [lia|exact D].
  - intros (w & t & w' & -> & W & J & W' & D). apply levels_depth in D; [|lia]. rewrite (proj1 pval_complete t j J _ w w' W).
    + rewrite (proj2 (skip_nil w') W'), decide_True by exact D. reflexivity.
    + rewrite <- (app_nil_r w'). apply blank_follow; [exact W'|]. intros b [=].
    + rewrite !app_length. lia.
Qed.
Lemma json_text_fun s j j' : json_text s j -> json_text s j' -> j = j'.
Proof. intros H H'. apply parse_json_exact in H, H'. congruence. Qed.

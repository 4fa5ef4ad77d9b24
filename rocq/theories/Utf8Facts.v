(** The scanner of Json.v accepts exactly RFC 3629 text. *)
From Verif Require Export SpecStore JsonFacts.
Local Open Scope Z_scope.

Lemma chunks_fuel_any f f' s : (length s <= f)%nat -> (length s <= f')%nat -> chunks_fuel f s = chunks_fuel f' s.
Proof.
  revert f' s. induction f as [|f IH]; intros f' s H H'; [destruct s; [destruct f'; reflexivity|cbn in H; lia]|].
  destruct s as [|a r]; [destruct f'; reflexivity|]. cbn [length] in H, H'.
  destruct f' as [|f']; [lia|]. cbn [chunks_fuel].
  destruct (utf8_len (a :: r)) as [|n]; f_equal; apply IH; try lia;
    cbn [drop]; rewrite drop_length; lia.
Qed.
Lemma chunks_fuel_enough f s : (length s <= f)%nat -> chunks_fuel f s = chunks s.
Proof. intros H. apply chunks_fuel_any; auto. Qed.
Lemma chunks_app c s : c <> [] -> utf8_len (c ++ s) = length c -> chunks (c ++ s) = c :: chunks s.
Proof.
  intros Hc E. unfold chunks at 1. destruct c as [|a c]; [congruence|].
  change ((a :: c) ++ s) with (a :: c ++ s) in *. cbn [length chunks_fuel]. rewrite E. cbn [length].
  cbn [take drop]. rewrite take_app, drop_app. f_equal. apply chunks_fuel_enough. rewrite app_length. lia.
Qed.

Lemma bz_zb_small z : 0 <= z < 256 -> bz (zb z) = z.
Proof. intros H. rewrite bz_zb. apply Z.mod_small. assumption. Qed.
Lemma cont_zb lo hi z : 0 <= z < 256 -> lo <= z <= hi -> cont lo hi (zb z) = true.
Proof. intros H1 H2. unfold cont. rewrite bz_zb_small by assumption. apply bool_decide_eq_true. assumption. Qed.

Lemma rfc3629_len r c s : scalar r -> rfc3629 r c -> c <> [] /\ utf8_len (c ++ s) = length c.
Proof.
  intros [R1 R2] H. destruct H as [r H|r H|r H|r H]; unfold octets; cbn [map app length]; (split; [discriminate|]).
  - apply utf8_len_ascii. rewrite bz_zb_small; lia.
  - unfold utf8_len. rewrite bz_zb_small by lia. rewrite decide_False, decide_True by lia.
    rewrite cont_zb by lia. reflexivity.
  - unfold utf8_len. rewrite bz_zb_small by lia. rewrite !decide_False, decide_True by lia.
    rewrite !cont_zb; try lia; [reflexivity|]. repeat case_decide; lia.
  - unfold utf8_len. rewrite bz_zb_small by lia. rewrite !decide_False, decide_True by lia.
    rewrite !cont_zb; try lia; [reflexivity|]. repeat case_decide; lia.
Qed.
Lemma text_utf8 s : utf8_text s -> utf8 s.
Proof.
  induction 1 as [|r c s R E T IH]; [constructor|]. unfold utf8.
  destruct (rfc3629_len _ _ s R E) as [N L]. rewrite (chunks_app _ _ N L).
  constructor; [|exact IH]. destruct (rfc3629_len _ _ [] R E) as [_ L']. rewrite app_nil_r in L'. rewrite L'.
  destruct c; [congruence|discriminate].
Qed.

Lemma octets_is (l : list Z) (c : bytes) : map bz c = l -> octets l = c.
Proof. intros <-. unfold octets. rewrite map_map. rewrite <- (map_id c) at 2. apply map_ext. apply zb_bz. Qed.
Lemma cont_inv lo hi b : cont lo hi b = true -> lo <= bz b <= hi.
Proof. apply bool_decide_eq_true. Qed.
Lemma chunk_rfc c : chunk_ok c -> utf8_len c <> 0%nat -> exists r, scalar r /\ rfc3629 r c.
Proof.
  intros O H. assert (utf8_len c = length c) as L.
  { destruct O as [[b ->]|[_ ->]]; [|reflexivity]. pose proof (utf8_len_le [b]). cbn [length] in *. lia. }
  clear O. destruct c as [|a r]; [cbn in H; congruence|]. clear H.
  pose proof (bz_range a). unfold utf8_len in L.
  destruct (decide (bz a < 128)) as [H1|H1].
  { destruct r; [|discriminate]. exists (bz a). split; [split; lia|].
    rewrite <- (octets_is [bz a] [a]) by reflexivity. constructor. assumption. }
  destruct (decide (194 <= bz a <= 223)) as [H2|H2].
  { destruct r as [|b r]; [discriminate|]. destruct (cont 128 191 b) eqn:Eb; [|discriminate].
    destruct r; [|discriminate]. apply cont_inv in Eb.
    exists ((bz a - 192) * 64 + (bz b - 128)). split; [split; lia|].
    rewrite <- (octets_is [bz a; bz b] [a; b]) by reflexivity.
    evar (l : list Z). replace [bz a; bz b] with l; [subst l; apply U2; lia|]. subst l.
    repeat f_equal; lia. }
  destruct (decide (224 <= bz a <= 239)) as [H3|H3].
  { destruct r as [|b [|c r]]; try discriminate. destruct (_ && _) eqn:Eb in L; [|discriminate].
    destruct r; [|discriminate]. apply andb_true_iff in Eb as [Eb Ec].
    apply cont_inv in Eb, Ec.
    exists ((bz a - 224) * 4096 + (bz b - 128) * 64 + (bz c - 128)).
    split; [split; repeat case_decide; lia|].
    rewrite <- (octets_is [bz a; bz b; bz c] [a; b; c]) by reflexivity.
    evar (l : list Z). replace [bz a; bz b; bz c] with l; [subst l; apply U3; repeat case_decide; lia|]. subst l.
    repeat f_equal; repeat case_decide; lia. }
  destruct (decide (240 <= bz a <= 244)) as [H4|H4]; [|discriminate].
  destruct r as [|b [|c [|d r]]]; try discriminate. destruct (_ && _) eqn:Eb in L; [|discriminate].
  destruct r; [|discriminate]. apply andb_true_iff in Eb as [Eb Ed]. apply andb_true_iff in Eb as [Eb Ec].
  apply cont_inv in Eb, Ec, Ed.
  exists ((bz a - 240) * 262144 + (bz b - 128) * 4096 + (bz c - 128) * 64 + (bz d - 128)).
  split; [split; repeat case_decide; lia|].
  rewrite <- (octets_is [bz a; bz b; bz c; bz d] [a; b; c; d]) by reflexivity.
  evar (l : list Z). replace [bz a; bz b; bz c; bz d] with l; [subst l; apply U4; repeat case_decide; lia|]. subst l.
  repeat f_equal; repeat case_decide; lia.
Qed.
Lemma utf8_is_text s : utf8 s -> utf8_text s.
Proof.
  intros H. rewrite <- (chunks_concat s). pose proof (chunks_ok s) as O. unfold utf8 in H. revert O H.
  induction (chunks s) as [|c l IH]; intros O H; [constructor|].
  apply Forall_cons in O as [O1 O2]. apply Forall_cons in H as [H1 H2]. cbn [concat].
  destruct (chunk_rfc c O1 H1) as (r & R & E). eapply text_cons; eauto.
Qed.
Lemma san_text s : utf8_text (san s).
Proof.
  unfold san. pose proof (chunks_ok s) as O. induction O as [|c l O1 O2 IH]; [constructor|].
  cbn [flat_map]. unfold san_chunk at 1. destruct (utf8_len c) eqn:E.
  - apply (text_cons 65533 fffd); [split; lia| |exact IH].
    rewrite <- (octets_is [224 + 65533 / 64 / 64; 128 + 65533 / 64 mod 64; 128 + 65533 mod 64] fffd) by reflexivity.
    constructor. lia.
  - destruct (chunk_rfc c O1) as (r & R & F); [congruence|]. eapply text_cons; eauto.
Qed.

Lemma made_valid_fuel f s : (length s <= f)%nat -> made_valid s (flat_map san_chunk (chunks_fuel f s)).
Proof.
  revert s. induction f as [|f IH]; intros s H; [destruct s; [constructor|cbn in H; lia]|].
  destruct s as [|a r]; [constructor|]. cbn [chunks_fuel]. destruct (utf8_len (a :: r)) as [|n] eqn:E.
  - cbn [flat_map]. assert (san_chunk [a] = fffd) as ->.
    { unfold san_chunk. destruct (utf8_len [a]) as [|n'] eqn:E'; [reflexivity|].
      pose proof (utf8_len_app [a] r) as U. rewrite E' in U. pose proof (utf8_len_le [a]) as [U2 _].
      cbn [length] in U2. assert (n' = 0%nat) as -> by lia. cbn [take app] in U. rewrite E in U. lia. }
    apply mv_stray; [|apply IH; cbn in H; lia].
    intros x c R F [t Et]. destruct (rfc3629_len _ _ t R F) as [N L]. rewrite <- Et, E in L.
    destruct c; [congruence|discriminate].
  - cbn [flat_map]. assert (utf8_len (a :: r) <> 0%nat) as NZ by lia.
    pose proof (take_len_chunk _ NZ) as O. pose proof (utf8_len_app (a :: r) [] NZ) as U. rewrite app_nil_r in U.
    rewrite E in O, U. unfold san_chunk at 1. rewrite U.
    destruct (chunk_rfc _ O) as (x & R & F); [lia|].
    rewrite <- (take_drop (S n) (a :: r)) at 1. eapply mv_char; eauto. apply IH.
    cbn [drop]. rewrite drop_length. cbn in H. lia.
Qed.
Lemma made_valid_san s : made_valid s (san s).
Proof. apply made_valid_fuel. reflexivity. Qed.

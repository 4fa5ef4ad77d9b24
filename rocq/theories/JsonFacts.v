(** Facts about JSON: what is printed is parsed back, with strings made valid. *)
From Verif Require Export Json Base64Facts.
Local Open Scope Z_scope.

(** ** Characters *)
Lemma utf8_len_le s : (utf8_len s <= length s)%nat /\ (utf8_len s <= 4)%nat.
Proof.
  unfold utf8_len. destruct s as [|a r]; [cbn; lia|].
  destruct (decide (bz a < 128)); [cbn [length]; lia|].
  destruct (decide (194 <= bz a <= 223)); [|destruct (decide (224 <= bz a <= 239)); [|destruct (decide (240 <= bz a <= 244)); [|lia]]].
  - destruct r as [|b r]; cbn [length]; [lia|]. destruct (cont _ _ b); lia.
  - destruct r as [|b [|c r]]; cbn [length]; try lia. destruct (_ && _); lia.
  - destruct r as [|b [|c [|d r]]]; cbn [length]; try lia. destruct (_ && _); lia.
Qed.
Lemma utf8_len_app s rest : utf8_len s <> 0%nat -> utf8_len (take (utf8_len s) s ++ rest) = utf8_len s.
Proof.
  destruct s as [|a r]; [cbn; lia|]. intros H.
  remember (utf8_len (a :: r)) as n eqn:En. unfold utf8_len in En. cbn zeta in En.
  destruct (decide (bz a < 128)) as [H1|H1].
  { subst n. cbn [take app]. unfold utf8_len. rewrite decide_True by assumption. reflexivity. }
  destruct (decide (194 <= bz a <= 223)) as [H2|H2].
  { destruct r as [|b r]; [congruence|]. destruct (cont 128 191 b) eqn:Eb; [|congruence]. subst n.
    cbn [take app]. unfold utf8_len. rewrite decide_False, decide_True by assumption. rewrite Eb. reflexivity. }
  destruct (decide (224 <= bz a <= 239)) as [H3|H3].
  { destruct r as [|b [|c r]]; try congruence. destruct (_ && _) eqn:Eb in En; [|congruence]. subst n.
    cbn [take app]. unfold utf8_len. rewrite !decide_False, decide_True by assumption. rewrite Eb. reflexivity. }
  destruct (decide (240 <= bz a <= 244)) as [H4|H4]; [|congruence].
  destruct r as [|b [|c [|d r]]]; try congruence. destruct (_ && _) eqn:Eb in En; [|congruence]. subst n.
  cbn [take app]. unfold utf8_len. rewrite !decide_False, decide_True by assumption. rewrite Eb. reflexivity.
Qed.
Lemma utf8_len_ascii b r : bz b < 128 -> utf8_len (b :: r) = 1%nat.
Proof. intros H. unfold utf8_len. rewrite decide_True by assumption. reflexivity. Qed.
Lemma utf8_len_one s : utf8_len s = 1%nat -> exists b r, s = b :: r /\ bz b < 128.
Proof.
  unfold utf8_len. destruct s as [|a r]; [discriminate|]. case_decide as H1; [eauto|].
  destruct (decide (194 <= bz a <= 223)); [|destruct (decide (224 <= bz a <= 239)); [|destruct (decide (240 <= bz a <= 244)); [|discriminate]]].
  - destruct r as [|b r]; [discriminate|]. destruct (cont _ _ b); discriminate.
  - destruct r as [|b [|c r]]; try discriminate. destruct (_ && _); discriminate.
  - destruct r as [|b [|c [|d r]]]; try discriminate. destruct (_ && _); discriminate.
Qed.

Definition chunk_ok (c : bytes) : Prop :=
  (exists b, c = [b]) \/ ((2 <= length c)%nat /\ utf8_len c = length c).
Lemma take_len_chunk s : utf8_len s <> 0%nat -> chunk_ok (take (utf8_len s) s).
Proof.
  intros H. pose proof (utf8_len_le s). destruct (decide (utf8_len s = 1%nat)) as [E|E].
  - left. rewrite E. destruct s as [|b r]; [cbn in H; congruence|]. exists b. reflexivity.
  - right. assert (length (take (utf8_len s) s) = utf8_len s) as L by (rewrite take_length; lia).
    rewrite L. split; [lia|]. rewrite <- (app_nil_r (take _ s)). apply utf8_len_app. assumption.
Qed.
Lemma chunks_fuel_ok f s : Forall chunk_ok (chunks_fuel f s).
Proof.
  revert s; induction f as [|f IH]; intros s; [constructor|]. destruct s as [|a r]; [constructor|].
  cbn [chunks_fuel]. destruct (utf8_len (a :: r)) as [|n] eqn:E.
  - constructor; auto. left. eauto.
  - constructor; auto. rewrite <- E. apply take_len_chunk. lia.
Qed.
Lemma chunks_ok s : Forall chunk_ok (chunks s). Proof. apply chunks_fuel_ok. Qed.
Lemma chunks_fuel_concat f s : (length s <= f)%nat -> concat (chunks_fuel f s) = s.
Proof.
  revert s; induction f as [|f IH]; intros s H; [destruct s; [reflexivity|cbn in H; lia]|].
  destruct s as [|a r]; [reflexivity|]. cbn [chunks_fuel].
  destruct (utf8_len (a :: r)) as [|n] eqn:E.
  - cbn [concat app]. f_equal. apply IH. cbn in H. lia.
  - cbn [concat]. rewrite IH; [apply take_drop|]. rewrite drop_length. cbn in *. lia.
Qed.
Lemma chunks_concat s : concat (chunks s) = s.
Proof. apply chunks_fuel_concat. reflexivity. Qed.

(** A valid UTF-8 string has no stray bytes. *)
Definition utf8 (s : bytes) : Prop := Forall (fun c => utf8_len c <> 0%nat) (chunks s).
Global Instance utf8_dec s : Decision (utf8 s).
Proof. unfold utf8. apply _. Defined.
Lemma san_utf8 s : utf8 s -> san s = s.
Proof.
  intros H. unfold san. transitivity (concat (chunks s)); [|apply chunks_concat].
  unfold utf8 in H. induction H as [|c l H Hl IH]; [reflexivity|]. cbn [flat_map concat].
  rewrite IH. f_equal. unfold san_chunk. destruct (utf8_len c); congruence.
Qed.
Lemma utf8_ascii s : Forall (fun b => bz b < 128) s -> utf8 s.
Proof.
  intros H. unfold utf8, chunks. generalize (length s). intros f.
  revert s H. induction f as [|f IH]; intros s H; [constructor|].
  destruct H as [|a r Ha Hr]; [constructor|]. cbn [chunks_fuel]. rewrite utf8_len_ascii by assumption.
  cbn [take drop]. constructor; [|auto].
  rewrite utf8_len_ascii by assumption. discriminate.
Qed.

(** ** Strings *)
Lemma pchar_quote c rest : chunk_ok c -> pchar (quote_chunk c ++ rest) = Some (san_chunk c, rest).
Proof.
  intros [[b ->]|[H1 H2]].
  - destruct b; reflexivity.
  - unfold quote_chunk. destruct c as [|a [|b c]]; cbn [length] in H1; try lia.
    destruct (decide (a :: b :: c = [xe2; x80; xa8])) as [->|N1]; [reflexivity|].
    destruct (decide (a :: b :: c = [xe2; x80; xa9])) as [->|N2]; [reflexivity|].
    assert (128 <= bz a) as Ha.
    { destruct (decide (bz a < 128)) as [H|H]; [|lia]. rewrite utf8_len_ascii in H2 by assumption. cbn in H2. lia. }
    assert (a <> x5c) as Hn by (intros ->; cbn in Ha; lia).
    unfold san_chunk. pose proof (utf8_len_app (a :: b :: c) rest) as U. rewrite H2 in *.
    rewrite firstn_all in U. specialize (U ltac:(discriminate)).
    cbn [app] in *. unfold pchar. rewrite decide_False by assumption. rewrite decide_False by lia.
    rewrite U. cbn [length]. f_equal. f_equal.
    + change (take (length (a :: b :: c)) ((a :: b :: c) ++ rest) = a :: b :: c). apply take_app_alt. reflexivity.
    + change (drop (length (a :: b :: c)) ((a :: b :: c) ++ rest) = rest). apply drop_app_alt. reflexivity.
Qed.
Lemma quote_chunk_head c : chunk_ok c -> exists b r, quote_chunk c = b :: r /\ b <> x22.
Proof.
  intros [[b ->]|[H1 H2]].
  - destruct b; vm_compute; do 2 eexists; (split; [reflexivity|discriminate]).
  - unfold quote_chunk. destruct c as [|a [|b c]]; cbn [length] in H1; try lia.
    case_decide; [do 2 eexists; split; [reflexivity|discriminate]|].
    case_decide; [do 2 eexists; split; [reflexivity|discriminate]|].
    do 2 eexists. split; [reflexivity|]. intros ->. rewrite utf8_len_ascii in H2 by (cbn; lia). cbn in H2. lia.
Qed.
Lemma pstr_quote cs : Forall chunk_ok cs -> forall f rest,
  (length (flat_map quote_chunk cs) < f)%nat ->
  pstr f (flat_map quote_chunk cs ++ x22 :: rest) = Some (flat_map san_chunk cs, rest).
Proof.
  induction 1 as [|c cs Hc Hcs IH]; intros f rest Hf; (destruct f as [|f]; [lia|]).
  - reflexivity.
  - cbn [flat_map] in *. destruct (quote_chunk_head c Hc) as (b & r & E & N).
    rewrite app_length, E in Hf. cbn [length] in Hf.
    rewrite <- app_assoc. remember (flat_map quote_chunk cs ++ x22 :: rest) as tl eqn:Et.
    assert (quote_chunk c ++ tl = b :: (r ++ tl)) as E' by (rewrite E; reflexivity).
    cbn [pstr]. rewrite E'. rewrite decide_False by assumption. rewrite <- E'.
    rewrite pchar_quote by assumption. rewrite Et. rewrite IH by lia. reflexivity.
Qed.
Lemma pstring_quote s rest : pstring (quote s ++ rest) = Some (san s, rest).
Proof.
  unfold quote, pstring. cbn [app]. rewrite decide_True by reflexivity. rewrite <- app_assoc. cbn [app].
  apply pstr_quote; [apply chunks_ok|]. rewrite app_length. cbn [length]. lia.
Qed.
Lemma quote_san s t : quote s = quote t -> san s = san t.
Proof. intros E. pose proof (pstring_quote s []) as H. rewrite E, pstring_quote in H. congruence. Qed.

(** ** Numbers *)
Definition term (s : bytes) : Prop := forall b, head s = Some b -> b = x2c \/ b = x5d \/ b = x7d.
Lemma is_dig_spec b : is_dig b = true <-> is_digit b.
Proof. unfold is_dig, is_digit. apply bool_decide_eq_true. Qed.
Lemma digits_app d rest :
  Forall is_digit d -> (forall b, head rest = Some b -> is_dig b = false) -> digits (d ++ rest) = (d, rest).
Proof.
  intros H Hr. induction H as [|b d Hb Hd IH].
  - cbn [app]. destruct rest as [|b r]; [reflexivity|]. cbn [digits]. rewrite (Hr b eq_refl). reflexivity.
  - cbn [app digits]. rewrite (proj2 (is_dig_spec b) Hb). rewrite IH. reflexivity.
Qed.
Lemma show_zero : show 0 = [x30]. Proof. reflexivity. Qed.
Lemma show_nonnil z : show z <> [].
Proof.
  unfold show. cbn [show_fuel]. case_decide; [discriminate|].
  assert (forall f y acc, acc <> [] -> show_fuel f y acc <> []) as A.
  { induction f as [|f IH]; intros y acc Ha; [exact Ha|]. cbn [show_fuel]. case_decide; [discriminate|]. apply IH. discriminate. }
  apply A. discriminate.
Qed.
Lemma show_head z : 0 < z -> exists b r, show z = b :: r /\ b <> x30.
Proof.
  intros H. destruct (show z) as [|b r] eqn:E; [exfalso; eapply show_nonnil; eauto|].
  exists b, r. split; auto. intros ->.
  destruct (show_spec z) as [F D]; [lia|]. rewrite E in F, D. rewrite dval_cons in D. cbn in D.
  assert (Forall is_digit r) as Fr by (inversion F; assumption). pose proof (dval_range r Fr) as R.
  destruct r as [|c r]; [cbn in D; lia|].
  assert (length (show z) <= S (length r))%nat as L.
  { apply show_length. unfold zlen in R. cbn [length] in R. lia. }
  rewrite E in L. cbn [length] in L. lia.
Qed.
Definition lit (z : Z) : bytes := if decide (z < 0) then x2d :: show (- z) else show z.
Lemma jint_lit z : jint z = JNum (lit z). Proof. reflexivity. Qed.
Lemma pint_show z rest : 0 <= z -> term rest -> pint (show z ++ rest) = Some (show z, rest).
Proof.
  intros H T. assert (forall b, head rest = Some b -> is_dig b = false) as Hd.
  { intros b Hb. destruct (T b Hb) as [-> | [-> | ->]]; reflexivity. }
  destruct (decide (z = 0)) as [->|N]; [reflexivity|].
  destruct (show_head z) as (b & r & E & Nb); [lia|]. destruct (show_spec z H) as [F _].
  pose proof (digits_app (show z) rest F Hd) as D. rewrite E in *. cbn [app] in *. unfold pint.
  rewrite decide_False by assumption. rewrite (proj2 (is_dig_spec b)) by (inversion F; assumption). f_equal. exact D.
Qed.
Lemma pnum_lit z rest : term rest -> pnum (lit z ++ rest) = Some (lit z, rest).
Proof.
  intros T. unfold lit. assert (pfrac rest = Some ([], rest) /\ pexp rest = Some ([], rest)) as [F E].
  { destruct rest as [|b r]; [auto|]. destruct (T b eq_refl) as [-> | [-> | ->]]; auto. }
  case_decide as H.
  - unfold pnum. cbn [app psign]. rewrite decide_True by reflexivity. rewrite pint_show by (auto; lia).
    rewrite F, E. rewrite !app_nil_r. reflexivity.
  - unfold pnum. assert (psign (show z ++ rest) = ([], show z ++ rest)) as ->.
    { destruct (show z) as [|b r] eqn:Es; [exfalso; eapply show_nonnil; eauto|]. cbn [app psign].
      rewrite decide_False; [reflexivity|]. intros ->. destruct (show_spec z) as [Fd _]; [lia|].
      rewrite Es in Fd. inversion Fd as [|? ? Hd]. unfold is_digit in Hd. cbn in Hd. lia. }
    rewrite pint_show by (auto; lia). rewrite F, E. rewrite !app_nil_r. reflexivity.
Qed.
Lemma lit_head z : exists b r, lit z = b :: r /\ (b = x2d \/ is_digit b).
Proof.
  unfold lit. case_decide; [eauto|]. destruct (show z) as [|b r] eqn:E; [exfalso; eapply show_nonnil; eauto|].
  destruct (show_spec z) as [F _]; [lia|]. rewrite E in F. inversion F. eauto.
Qed.
Lemma lit_int_lit z : lit_int (lit z) = Some z.
Proof.
  assert (forall d, Forall is_digit d -> forallb is_dig d = true) as A.
  { induction 1 as [|b d H _ IH]; [reflexivity|]. cbn. rewrite IH, (proj2 (is_dig_spec b) H). reflexivity. }
  unfold lit, lit_int. case_decide as H.
  - cbn [psign]. rewrite decide_True by reflexivity. rewrite decide_False by apply show_nonnil.
    destruct (show_spec (- z)) as [F D]; [lia|]. rewrite A by assumption. f_equal.
    change (fold_left _ (show (- z)) 0) with (dval (show (- z))). lia.
  - assert (psign (show z) = ([], show z)) as ->.
    { destruct (show z) as [|b r] eqn:Es; [reflexivity|]. cbn [psign].
      rewrite decide_False; [reflexivity|]. intros ->. destruct (show_spec z) as [Fd _]; [lia|].
      rewrite Es in Fd. inversion Fd as [|? ? Hd]. unfold is_digit in Hd. cbn in Hd. lia. }
    rewrite decide_False by apply show_nonnil. destruct (show_spec z) as [F D]; [lia|]. rewrite A by assumption. f_equal.
    exact D.
Qed.
Lemma dec_int_jint cur z : - 2 ^ 63 <= z < 2 ^ 63 -> dec_int cur (jint z) = Some z.
Proof. intros H. rewrite jint_lit. unfold dec_int. rewrite lit_int_lit. rewrite decide_True by assumption. reflexivity. Qed.
Lemma dec_bytes_jbytes cur b : dec_bytes cur (jbytes b) = Some b.
Proof. destruct b as [b|]; [|reflexivity]. unfold dec_bytes, jbytes. rewrite b64_roundtrip. reflexivity. Qed.
Lemma san_b64 b : san (b64_encode b) = b64_encode b.
Proof.
  apply san_utf8, utf8_ascii. eapply Forall_impl; [apply b64_encode_alpha|].
  intros c H. unfold b64_alpha in H. lia.
Qed.

(** ** Values *)
Section JsonInd.
Variable P : json -> Prop.
Hypothesis H1 : P JNull.
Hypothesis H2 : forall b, P (JBool b).
Hypothesis H3 : forall l, P (JNum l).
Hypothesis H4 : forall s, P (JStr s).
Hypothesis H5 : forall l, Forall P l -> P (JArr l).
Hypothesis H6 : forall l, Forall (fun kv => P (snd kv)) l -> P (JObj l).
Fixpoint json_rect' (j : json) : P j :=
  match j with
  | JNull => H1 | JBool b => H2 b | JNum l => H3 l | JStr s => H4 s
  | JArr l => H5 l ((fix go (l : list json) : Forall P l :=
                       match l with [] => Forall_nil_2 P | x :: r => Forall_cons_2 P x r (json_rect' x) (go r) end) l)
  | JObj l => H6 l ((fix go (l : list (bytes * json)) : Forall (fun kv => P (snd kv)) l :=
                       match l with [] => Forall_nil_2 _ | x :: r => Forall_cons_2 _ x r (json_rect' (snd x)) (go r) end) l)
  end.
End JsonInd.

(** Values whose numbers are integer literals. *)
Fixpoint int_json (j : json) : Prop :=
  match j with
  | JNum l => exists z, l = lit z
  | JArr l => fold_right (fun x p => int_json x /\ p) True l
  | JObj l => fold_right (fun kv p => int_json (snd kv) /\ p) True l
  | _ => True
  end.
Fixpoint san_json (j : json) : json :=
  match j with
  | JStr s => JStr (san s)
  | JArr l => JArr (map san_json l)
  | JObj l => JObj (map (fun kv => (san (fst kv), san_json (snd kv))) l)
  | _ => j
  end.

Lemma skip_ws_head b r : is_ws b = false -> skip_ws (b :: r) = b :: r.
Proof. intros H. cbn [skip_ws]. rewrite H. reflexivity. Qed.
Lemma print_head j : int_json j -> exists b r, print j = b :: r /\ is_ws b = false /\ b <> x5d /\ b <> x7d.
Proof.
  destruct j as [|[]|l|s|l|l]; cbn [int_json print]; intros H;
    try (do 2 eexists; split; [reflexivity|split; [reflexivity|split; discriminate]]).
  destruct H as [z ->]. destruct (lit_head z) as (b & r & E & Hb). exists b, r. split; auto.
  destruct Hb as [->|Hb]; [split; [reflexivity|split; discriminate]|]. unfold is_digit in Hb.
  split; [|split; intros ->; cbn in Hb; lia].
  apply bool_decide_eq_false. intros [-> | [-> | [-> | ->]]]; cbn in Hb; lia.
Qed.
Lemma skip_ws_print j rest : int_json j -> skip_ws (print j ++ rest) = print j ++ rest.
Proof. intros H. destruct (print_head j H) as (b & r & -> & W & _). cbn [app]. apply skip_ws_head. exact W. Qed.

Lemma sep_cons x l : sep (x :: l) = match l with [] => x | _ => x ++ x2c :: sep l end.
Proof. destruct l as [|y l]; cbn [sep flat_map app]; [apply app_nil_r|reflexivity]. Qed.

Definition pval_ok (j : json) : Prop := int_json j -> forall f rest,
  (2 * length (print j) <= f)%nat -> term rest -> pval f (print j ++ rest) = Some (san_json j, rest).

Lemma parr_print l : l <> [] -> Forall pval_ok l -> Forall int_json l -> forall f rest,
  (2 * length (sep (map print l)) + 1 <= f)%nat ->
  parr f (sep (map print l) ++ x5d :: rest) = Some (map san_json l, rest).
Proof.
  induction l as [|j l IH]; intros Hn Hl Hi f rest Hf; [congruence|].
  apply Forall_cons_1 in Hl as [Hj Hl]. apply Forall_cons_1 in Hi as [Ij Il].
  destruct f as [|f]; [lia|]. cbn [map] in *. rewrite sep_cons in *. cbn [parr].
  destruct l as [|j' l].
  - cbn [map] in *. rewrite Hj; [|assumption|lia|intros b [= <-]; auto]. rewrite skip_ws_head by reflexivity.
    rewrite decide_True by reflexivity. reflexivity.
  - cbn [map] in *. rewrite app_length in Hf. cbn [length] in Hf. rewrite <- app_assoc. cbn [app].
    rewrite Hj; [|assumption|lia|intros b [= <-]; auto]. rewrite skip_ws_head by reflexivity.
    rewrite decide_False by discriminate. rewrite decide_True by reflexivity.
    cbn [map] in IH. rewrite IH; auto; try discriminate. lia.
Qed.

Definition print_kv (kv : bytes * json) : bytes := quote (fst kv) ++ x3a :: print (snd kv).
Definition san_kv (kv : bytes * json) : bytes * json := (san (fst kv), san_json (snd kv)).
Lemma skip_ws_quote s rest : skip_ws (quote s ++ rest) = quote s ++ rest.
Proof. unfold quote. cbn [app]. apply skip_ws_head. reflexivity. Qed.
Lemma length_quote s : (2 <= length (quote s))%nat.
Proof. unfold quote. cbn [length]. rewrite app_length. cbn. lia. Qed.
Lemma pobj_print l : l <> [] -> Forall (fun kv => pval_ok (snd kv)) l -> Forall (fun kv => int_json (snd kv)) l -> forall f rest,
  (2 * length (sep (map print_kv l)) + 1 <= f)%nat ->
  pobj f (sep (map print_kv l) ++ x7d :: rest) = Some (map san_kv l, rest).
Proof.
  induction l as [|[k j] l IH]; intros Hn Hl Hi f rest Hf; [congruence|].
  apply Forall_cons_1 in Hl as [Hj Hl]. apply Forall_cons_1 in Hi as [Ij Il]. cbn [snd] in Hj, Ij.
  destruct f as [|f]; [lia|]. cbn [map] in *. rewrite sep_cons in *. cbn [pobj].
  assert (forall tl, term tl -> (2 * length (print_kv (k, j)) + 1 <= S f)%nat ->
     match pstring (skip_ws (print_kv (k, j) ++ tl)) with
     | Some (k, r) => match eat [x3a] (skip_ws r) with Some r => Some (k, pval f r) | None => None end
     | None => None end = Some (san k, Some (san_json j, tl))) as A.
  { intros tl T L. unfold print_kv in *. cbn [fst snd] in *. rewrite <- app_assoc. rewrite skip_ws_quote, pstring_quote.
    cbn [app]. rewrite skip_ws_head by reflexivity. unfold eat. cbn [length take drop]. rewrite decide_True by reflexivity.
    rewrite app_length in L. cbn [length] in L. rewrite drop_0, Hj; auto. lia. }
  destruct l as [|kv' l].
  - cbn [map] in *. specialize (A (x7d :: rest) ltac:(intros b [= <-]; auto) ltac:(lia)).
    destruct (pstring _) as [[k' r]|]; [|discriminate]. destruct (eat _ _) as [r'|]; [|discriminate].
    injection A as -> ->. rewrite skip_ws_head by reflexivity. rewrite decide_True by reflexivity. reflexivity.
  - cbn [map] in *.
    rewrite app_length in Hf. cbn [length] in Hf. rewrite <- app_assoc. rewrite <- app_comm_cons.
    match goal with |- context [print_kv (k, j) ++ ?t] => specialize (A t ltac:(intros b [= <-]; auto) ltac:(lia)); remember t as tl eqn:Et end.
    destruct (pstring _) as [[k' r]|]; [|discriminate]. destruct (eat _ _) as [r'|]; [|discriminate].
    injection A as -> ->. rewrite Et. rewrite skip_ws_head by reflexivity. rewrite decide_False by discriminate. rewrite decide_True by reflexivity.
    cbn [map] in IH. rewrite IH; auto; try discriminate. lia.
Qed.

Lemma fold_and {A} (Q : A -> Prop) l : fold_right (fun x p => Q x /\ p) True l <-> Forall Q l.
Proof.
  induction l as [|x l IH]; cbn; [split; auto|]. rewrite IH. split; [intros []; constructor; auto|intros H; inversion H; auto].
Qed.

Lemma pval_print j : pval_ok j.
Proof.
  induction j as [|b|l|s|l IH|l IH] using json_rect'; intros I f rest Hf T.
  - destruct f as [|f]; [cbn in Hf; lia|]. reflexivity.
  - destruct f as [|f]; [destruct b; cbn in Hf; lia|]. destruct b; reflexivity.
  - cbn [print] in *. destruct I as [z ->]. destruct (lit_head z) as (b & r & E & Hb).
    assert (print (JNum (lit z)) ++ rest = b :: (r ++ rest)) as E'.
    { cbn [print]. rewrite E. reflexivity. }
    destruct f as [|f]; [rewrite E in Hf; cbn in Hf; lia|]. cbn [pval].
    pose proof (skip_ws_print (JNum (lit z)) rest (ex_intro _ z eq_refl)) as W. cbn [print] in *. rewrite W, E'.
    assert (b <> x22 /\ b <> x5b /\ b <> x7b /\ b <> x6e /\ b <> x74 /\ b <> x66) as (N1 & N2 & N3 & N4 & N5 & N6).
    { destruct Hb as [->|Hb]; [repeat split; discriminate|]. unfold is_digit in Hb. repeat split; intros ->; cbn in Hb; lia. }
    rewrite !decide_False by assumption. rewrite <- E', pnum_lit by assumption. reflexivity.
  - destruct f as [|f]; [cbn [print] in Hf; pose proof (length_quote s); lia|]. cbn [pval print]. rewrite skip_ws_quote.
    pose proof (pstring_quote s rest) as Q. unfold quote at 1. cbn [app]. unfold quote in Q. cbn [app] in Q.
    rewrite decide_True by reflexivity. rewrite Q. reflexivity.
  - cbn [int_json] in I. apply fold_and in I. destruct f as [|f]; [cbn in Hf; lia|]. cbn [print pval app].
    rewrite skip_ws_head by reflexivity. rewrite decide_False by discriminate. rewrite decide_True by reflexivity.
    destruct l as [|j l]; [reflexivity|]. rewrite <- app_assoc. cbn [app].
    assert (head (skip_ws (sep (map print (j :: l)) ++ x5d :: rest)) <> Some x5d) as N.
    { apply Forall_cons_1 in I as [Ij _]. destruct (print_head j Ij) as (b & r & E & W & N & _).
      cbn [map]. rewrite sep_cons, E. assert (exists t, (match map print l with [] => b :: r | _ :: _ => (b :: r) ++ x2c :: sep (map print l) end) ++ x5d :: rest = b :: t) as [t ->].
      { destruct (map print l); eexists; reflexivity. }
      rewrite skip_ws_head by assumption. cbn. congruence. }
    rewrite decide_False by assumption. rewrite parr_print; auto; try discriminate.
    cbn [print length] in Hf. rewrite app_length in Hf. lia.
  - cbn [int_json] in I. apply (fold_and (fun kv => int_json (snd kv))) in I. destruct f as [|f]; [cbn in Hf; lia|]. cbn [print pval app].
    rewrite skip_ws_head by reflexivity. rewrite !decide_False by discriminate. rewrite decide_True by reflexivity.
    destruct l as [|[k j] l]; [reflexivity|]. rewrite <- app_assoc. cbn [app].
    change (map (fun kv => quote (fst kv) ++ x3a :: print (snd kv)) ((k, j) :: l)) with (map print_kv ((k, j) :: l)).
    assert (head (skip_ws (sep (map print_kv ((k, j) :: l)) ++ x7d :: rest)) <> Some x7d) as N.
    { cbn [map]. rewrite sep_cons. assert (exists t, (match map print_kv l with [] => print_kv (k, j) | _ :: _ => print_kv (k, j) ++ x2c :: sep (map print_kv l) end) ++ x7d :: rest = x22 :: t) as [t ->].
      { destruct (map print_kv l); eexists; reflexivity. }
      rewrite skip_ws_head by reflexivity. discriminate. }
    rewrite decide_False by assumption. rewrite pobj_print; auto; try discriminate.
    cbn [print length] in Hf. rewrite app_length in Hf. change (map (fun kv => quote (fst kv) ++ x3a :: print (snd kv)) ((k, j) :: l)) with (map print_kv ((k, j) :: l)) in Hf. lia.
Qed.

Lemma depth_arr l n : 0 <= n -> depth (JArr l) <= n <-> 0 < n /\ Forall (fun j => depth j <= n - 1) l.
Proof.
  intros Hn. cbn [depth]. induction l as [|j l IH]; cbn [fold_right].
  - split; [intros; split; [lia|constructor]|lia].
  - rewrite Forall_cons. split; [|intros (H & H1 & H2)]; [intros H; assert (0 < n /\ Forall (fun j => depth j <= n - 1) l) as [? ?] by (apply IH; lia); split_and!; auto; lia|].
    assert (0 < n /\ Forall (fun j => depth j <= n - 1) l) as H' by auto. apply IH in H'. lia.
Qed.
Lemma depth_obj l n : 0 <= n -> depth (JObj l) <= n <-> 0 < n /\ Forall (fun kv => depth (snd kv) <= n - 1) l.
Proof.
  intros Hn. cbn [depth]. induction l as [|j l IH]; cbn [fold_right].
  - split; [intros; split; [lia|constructor]|lia].
  - rewrite Forall_cons. split; [|intros (H & H1 & H2)]; [intros H; assert (0 < n /\ Forall (fun kv => depth (snd kv) <= n - 1) l) as [? ?] by (apply IH; lia); split_and!; auto; lia|].
    assert (0 < n /\ Forall (fun kv => depth (snd kv) <= n - 1) l) as H' by auto. apply IH in H'. lia.
Qed.
Lemma depth_san : forall j, depth (san_json j) = depth j.
Proof.
  fix IH 1. intros [|b|l|s|l|l]; try reflexivity; cbn [san_json depth]; f_equal.
  - induction l as [|j l IHl]; [reflexivity|]. cbn [map fold_right]. rewrite IH, IHl. reflexivity.
  - induction l as [|[k j] l IHl]; [reflexivity|]. cbn [map fold_right fst snd]. rewrite IH, IHl. reflexivity.
Qed.
Lemma parse_deep j : int_json j -> ~ depth j <= 10000 -> parse_json (print j) = None.
Proof.
  intros I D. unfold parse_json. pose proof (pval_print j I (S (2 * length (print j))) []) as H.
  rewrite app_nil_r in H. rewrite H; [|lia|intros b [=]]. cbn [skip_ws]. rewrite decide_False; [reflexivity|]. rewrite depth_san. exact D.
Qed.
Lemma parse_print j : int_json j -> depth j <= 10000 -> parse_json (print j) = Some (san_json j).
Proof.
  intros I D. unfold parse_json. pose proof (pval_print j I (S (2 * length (print j))) []) as H.
  rewrite app_nil_r in H. rewrite H; [|lia|intros b [=]]. cbn [skip_ws]. rewrite decide_True; [reflexivity|]. rewrite depth_san. exact D.
Qed.

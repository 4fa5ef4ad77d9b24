(** Facts about PEM. *)
From Verif Require Export Pem Base64Facts.
Local Open Scope Z_scope.

Lemma has_prefix_iff p s : has_prefix p s = true <-> exists r, s = p ++ r.
Proof.
  unfold has_prefix. rewrite bool_decide_eq_true. split.
  - intros E. exists (drop (length p) s). rewrite <- E at 1. symmetry. apply take_drop.
  - intros [r ->]. rewrite take_app_alt by reflexivity. reflexivity.
Qed.
Lemma has_prefix_app p r : has_prefix p (p ++ r) = true.
Proof. apply has_prefix_iff. eauto. Qed.
Lemma has_prefix_drop p s : has_prefix p s = true -> s = p ++ drop (length p) s.
Proof. intros P. apply has_prefix_iff in P as [r ->]. rewrite drop_app. reflexivity. Qed.
Lemma has_suffix_app u p : has_suffix p (u ++ p) = true.
Proof.
  unfold has_suffix. rewrite app_length. rewrite andb_true_iff, !bool_decide_eq_true. split; [lia|].
  replace (length u + length p - length p)%nat with (length u) by lia. apply drop_app.
Qed.

Lemma cut_char c u v : c ∉ u -> cut [c] (u ++ c :: v) = Some (u, v).
Proof.
  induction u as [|b u IH]; intros N.
  - cbn [app cut]. change (c :: v) with ([c] ++ v). rewrite has_prefix_app. reflexivity.
  - apply not_elem_of_cons in N as [N1 N2]. cbn [app cut].
    destruct (has_prefix [c] (b :: u ++ c :: v)) eqn:E.
    + apply has_prefix_iff in E as [r E]. injection E as E _. congruence.
    + rewrite IH by assumption. reflexivity.
Qed.
Lemma cut_char_none c u : c ∉ u -> cut [c] u = None.
Proof.
  induction u as [|b u IH]; intros N; [reflexivity|].
  apply not_elem_of_cons in N as [N1 N2]. cbn [cut].
  destruct (has_prefix [c] (b :: u)) eqn:E.
  - apply has_prefix_iff in E as [r E]. injection E as E _. congruence.
  - rewrite IH by assumption. reflexivity.
Qed.
Lemma cut_char_some c u : c ∈ u -> exists a b, cut [c] u = Some (a, b).
Proof.
  induction u as [|b u IH]; intros N; [inversion N|]. cbn [cut].
  destruct (has_prefix [c] (b :: u)) eqn:E; [eauto|].
  apply elem_of_cons in N as [-> | N].
  - exfalso. assert (has_prefix [b] (b :: u) = true) by (apply has_prefix_iff; exists u; reflexivity). congruence.
  - destruct (IH N) as (a & d & ->). eauto.
Qed.
(** A marker [nl :: c :: _] is found where it is when [c] does not occur before. *)
Lemma cut_marker n c q u v : n <> c -> c ∉ u -> cut (n :: c :: q) (u ++ (n :: c :: q) ++ v) = Some (u, v).
Proof.
  intros Hn. induction u as [|b u IH]; intros N.
  - cbn [app]. destruct v; cbn [cut app];
      change (n :: c :: q ++ ?w) with ((n :: c :: q) ++ w); rewrite has_prefix_app, drop_app; reflexivity.
  - apply not_elem_of_cons in N as [N1 N2]. cbn [app cut].
    destruct (has_prefix (n :: c :: q) (b :: u ++ n :: c :: q ++ v)) eqn:E.
    + apply has_prefix_iff in E as [r E]. exfalso. destruct u as [|b' u].
      * injection E as _ E _. congruence.
      * injection E as _ E _. apply not_elem_of_cons in N2 as [N2 _]. congruence.
    + change (u ++ n :: c :: q ++ v) with (u ++ (n :: c :: q) ++ v). rewrite IH by assumption. reflexivity.
Qed.
Lemma cut_inv p s u v : cut p s = Some (u, v) -> s = u ++ p ++ v.
Proof.
  revert u v. induction s as [|b s IH]; intros u v E; cbn [cut] in E; destruct (has_prefix p _) eqn:P in E.
  - injection E as <- <-. apply has_prefix_drop, P.
  - discriminate E.
  - injection E as <- <-. apply has_prefix_drop, P.
  - destruct (cut p s) as [[u' v']|]; [|discriminate E]. injection E as <- <-. cbn. f_equal. apply IH. reflexivity.
Qed.

Lemma trim_right_id s c : c <> x20 -> c <> x09 -> trim_right (s ++ [c]) = s ++ [c].
Proof.
  intros A B. induction s as [|b s IH]; cbn [app trim_right].
  - rewrite decide_False by (intros [?|?]; congruence). reflexivity.
  - rewrite IH. destruct s; reflexivity.
Qed.
Lemma trim_right_keeps s c : c <> x20 -> c <> x09 -> c ∈ s -> c ∈ trim_right s.
Proof.
  intros A B. induction s as [|b s IH]; intros I; [inversion I|]. cbn [trim_right].
  apply elem_of_cons in I as [<- | I].
  - destruct (trim_right s); [rewrite decide_False by (intros [?|?]; congruence)|]; left.
  - specialize (IH I). destruct (trim_right s); [inversion IH|]. right. exact IH.
Qed.
Lemma trim_right_sub s c : c ∈ trim_right s -> c ∈ s.
Proof.
  induction s as [|b s IH]; cbn [trim_right]; [auto|].
  destruct (trim_right s) eqn:E.
  - case_decide; intros I; [inversion I|]. apply elem_of_list_singleton in I as ->. left.
  - intros I. apply elem_of_cons in I as [-> | I]; [left|right; auto].
Qed.
Lemma drop_cr_keeps s c : c <> x0d -> c ∈ s -> c ∈ drop_cr s.
Proof.
  unfold drop_cr. case_decide as L; [|auto]. intros A I.
  destruct (exists_last (l := s)) as (u & x & ->); [intros ->; inversion I|].
  rewrite last_snoc in L. injection L as ->. rewrite app_length. cbn [length].
  replace (length u + 1 - 1)%nat with (length u) by lia. rewrite take_app.
  apply elem_of_app in I as [I|I]; [exact I|]. apply elem_of_list_singleton in I. congruence.
Qed.
Lemma drop_cr_sub s c : c ∈ drop_cr s -> c ∈ s.
Proof. unfold drop_cr. case_decide; [|auto]. intros I. rewrite <- (take_drop (length s - 1) s). apply elem_of_app. auto. Qed.

Lemma get_line_nl l rest : x0a ∉ l -> get_line (l ++ x0a :: rest) = (trim_right (drop_cr l), rest).
Proof. intros N. unfold get_line. rewrite cut_char by assumption. reflexivity. Qed.
Lemma get_line_blank rest : get_line (x0a :: rest) = ([], rest).
Proof. exact (get_line_nl [] rest ltac:(intros I; inversion I)). Qed.
Lemma get_line_last l c rest : x0a ∉ l ++ [c] -> c <> x20 -> c <> x09 -> c <> x0d ->
  get_line ((l ++ [c]) ++ x0a :: rest) = (l ++ [c], rest).
Proof.
  intros N A B D. rewrite get_line_nl by assumption. unfold drop_cr. rewrite last_snoc, decide_False by congruence.
  rewrite trim_right_id by assumption. reflexivity.
Qed.

(** *** Lines of base64 *)
Definition nonl (s : bytes) : bytes := List.filter (fun c => negb (bool_decide (c = x0a \/ c = x0d))) s.
Lemma nonl_app a b : nonl (a ++ b) = nonl a ++ nonl b.
Proof. apply List.filter_app. Qed.
Lemma nonl_alpha s : Forall b64_alpha s -> nonl s = s.
Proof. apply b64_alpha_filter. Qed.
Lemma pem_lines_nonl f : forall s, (length s <= f)%nat -> Forall b64_alpha s -> nonl (pem_lines f s) = s.
Proof.
  induction f as [|f IH]; intros s L A; [destruct s; [reflexivity|cbn in L; lia]|].
  cbn [pem_lines]. case_decide as E; [subst; reflexivity|].
  rewrite nonl_app. change (x0a :: pem_lines f (drop 64 s)) with ([x0a] ++ pem_lines f (drop 64 s)).
  rewrite nonl_app. change (nonl [x0a]) with (@nil byte). cbn [app].
  rewrite IH.
  - rewrite nonl_alpha by (apply Forall_take; assumption). apply take_drop.
  - rewrite drop_length. destruct s; [congruence|cbn in *; lia].
  - apply Forall_drop. assumption.
Qed.
Definition armour_char (c : byte) : Prop := b64_alpha c \/ c = x0a.
Lemma pem_lines_chars f : forall s, Forall b64_alpha s -> Forall armour_char (pem_lines f s).
Proof.
  induction f as [|f IH]; intros s A; [constructor|]. cbn [pem_lines]. case_decide; [constructor|].
  apply Forall_app. split.
  - apply Forall_take. eapply Forall_impl; [exact A|]. unfold armour_char. auto.
  - constructor; [right; reflexivity|]. apply IH. apply Forall_drop. assumption.
Qed.
Lemma pem_lines_end f : forall s, (length s <= f)%nat -> s <> [] -> exists u, pem_lines f s = u ++ [x0a].
Proof.
  induction f as [|f IH]; intros s L N; [destruct s; [congruence|cbn in L; lia]|].
  cbn [pem_lines]. rewrite decide_False by assumption.
  destruct (decide (drop 64 s = [])) as [E|E].
  - exists (take 64 s). rewrite E. destruct f; reflexivity.
  - destruct (IH (drop 64 s)) as [u ->]; [rewrite drop_length; destruct s; [congruence|cbn in *; lia]|assumption|].
    exists (take 64 s ++ x0a :: u). rewrite <- app_assoc. reflexivity.
Qed.
(** The first line. *)
Lemma pem_lines_first f s : (length s <= f)%nat -> s <> [] -> exists l r, pem_lines f s = l ++ x0a :: r /\ l <> [] /\ l `prefix_of` s.
Proof.
  intros L N. destruct f; [destruct s; [congruence|cbn in L; lia]|]. cbn [pem_lines]. rewrite decide_False by assumption.
  exists (take 64 s), (pem_lines f (drop 64 s)). split; [reflexivity|]. split; [destruct s; [congruence|discriminate]|].
  exists (drop 64 s). symmetry. apply take_drop.
Qed.
Lemma armour_no_dash s : Forall armour_char s -> x2d ∉ s.
Proof. intros A I. rewrite Forall_forall in A. destruct (A _ I) as [H|H]; [unfold b64_alpha in H; cbn in H; lia|congruence]. Qed.
Lemma alpha_no c s : ~ b64_alpha c -> Forall b64_alpha s -> c ∉ s.
Proof. intros N A I. rewrite Forall_forall in A. apply N, A, I. Qed.
Lemma remove_blanks_id s : Forall armour_char s -> remove_blanks s = s.
Proof.
  induction 1 as [|c s H Hs IH]; [reflexivity|]. unfold remove_blanks in *. cbn [List.filter].
  rewrite bool_decide_eq_false_2; [cbn; f_equal; exact IH|].
  intros [-> | ->]; destruct H as [H|H]; try congruence; unfold b64_alpha in H; cbn in H; lia.
Qed.

(** *** The round trip *)
(** A type PEM can carry: no line break, no colon. *)
Definition pem_type (ty : bytes) : Prop := x0a ∉ ty /\ x3a ∉ ty.
(** Headers without line breaks. *)
Definition pem_hdrs (h : list (bytes * bytes)) : Prop := Forall (fun kv => x0a ∉ fst kv /\ x0a ∉ snd kv) h.

Lemma pem_tail_exact ty junk : pem_tail_ok ty (ty ++ dashes ++ x0a :: junk) = true.
Proof.
  unfold pem_tail_ok. rewrite app_assoc. rewrite decide_False by (rewrite !app_length; lia).
  rewrite take_app_alt by (rewrite app_length; reflexivity).
  rewrite drop_app_alt by (rewrite app_length; reflexivity).
  rewrite has_prefix_app, has_suffix_app. rewrite get_line_blank. reflexivity.
Qed.
Lemma not_in_app (c : byte) a b : c ∉ a -> c ∉ b -> c ∉ a ++ b.
Proof. rewrite not_elem_of_app. auto. Qed.
Lemma not_in_dec (c : byte) s : forallb (fun b => negb (bool_decide (b = c))) s = true -> c ∉ s.
Proof.
  intros H I. rewrite forallb_forall in H. apply elem_of_list_In in I. apply H in I.
  rewrite bool_decide_eq_true_2 in I by reflexivity. discriminate I.
Qed.
Lemma dashes_snoc u : u ++ dashes = (u ++ bs "----") ++ [x2d].
Proof. rewrite <- app_assoc. reflexivity. Qed.

Lemma pem_headers_skip h rest : pem_hdrs h -> forall f any, (length (flat_map pem_header h ++ rest) < f)%nat ->
  exists f' any', (length rest < f')%nat /\ (any' = any || negb (bool_decide (h = []))) /\
    pem_headers f any (flat_map pem_header h ++ rest) = pem_headers f' any' rest.
Proof.
  induction h as [|[k v] h IH]; intros H f any L.
  - exists f, any. cbn [flat_map app] in *. rewrite bool_decide_eq_true_2 by reflexivity. destruct any; auto.
  - inversion H as [|? ? [Hk Hv] H']; subst. cbn [fst snd] in *.
    destruct f as [|f]; [lia|]. cbn [flat_map] in *. cbn [pem_headers].
    assert (pem_header (k, v) = (k ++ bs ": " ++ v) ++ [x0a]) as E by (unfold pem_header; cbn [fst snd]; rewrite <- !app_assoc; reflexivity).
    rewrite E in *. rewrite <- !app_assoc in *. rewrite decide_False by (destruct k; discriminate).
    change ([x0a] ++ flat_map pem_header h ++ rest) with (x0a :: flat_map pem_header h ++ rest) in *.
    replace (k ++ bs ": " ++ v ++ x0a :: flat_map pem_header h ++ rest)
      with ((k ++ bs ": " ++ v) ++ x0a :: flat_map pem_header h ++ rest) in * by (rewrite <- !app_assoc; reflexivity).
    rewrite get_line_nl by (repeat apply not_in_app; auto; apply not_in_dec; reflexivity).
    destruct (cut_char_some x3a (trim_right (drop_cr (k ++ bs ": " ++ v)))) as (a & d & ->).
    { apply trim_right_keeps; [discriminate|discriminate|]. apply drop_cr_keeps; [discriminate|].
      apply elem_of_app. right. left. }
    destruct (IH H' f true) as (f' & any' & L' & A & ->).
    { rewrite app_length in L. cbn [length] in L. lia. }
    exists f', any'. split; [assumption|]. split; [|reflexivity].
    rewrite bool_decide_eq_false_2 by discriminate. rewrite A. destruct any; reflexivity.
Qed.

Lemma pem_loop_found f rest line rest1 ty any rest2 body trailer b :
  has_prefix (drop 1 pem_start) rest = true -> get_line (drop (length pem_start - 1) rest) = (line, rest1) ->
  line = ty ++ dashes -> pem_headers (S (length rest1)) false rest1 = Some (any, rest2) ->
  pem_find_end any rest2 = Some (body, trailer) -> pem_tail_ok ty trailer = true ->
  b64_decode (remove_blanks body) = Some b -> pem_loop (S f) rest = Some (ty, b).
Proof.
  intros H1 H2 -> H4 H5 H6 H7. cbn [pem_loop]. rewrite H1, H2, has_suffix_app. cbn [negb].
  replace (length (ty ++ dashes) - length dashes)%nat with (length ty) by (rewrite app_length; lia). rewrite take_app.
  rewrite H4, H5, H6, H7. reflexivity.
Qed.

Theorem pem_roundtrip ty h b junk : pem_type ty -> pem_hdrs h -> pem_decode (pem_encode ty h b ++ junk) = Some (ty, b).
Proof.
  intros [T1 T2] H. unfold pem_decode. set (data := pem_encode ty h b ++ junk).
  set (e := b64_encode b) in *. assert (Forall b64_alpha e) as A by apply b64_encode_alpha.
  set (trl := ty ++ dashes ++ x0a :: junk).
  set (rest2 := pem_lines (length e) e ++ drop 1 pem_end ++ trl).
  set (hd := if decide (h = []) then [] else flat_map pem_header h ++ [x0a]).
  assert (data = drop 1 pem_start ++ (ty ++ dashes) ++ x0a :: hd ++ rest2) as E.
  { unfold data, pem_encode, rest2, trl, hd. cbv zeta. fold e. rewrite <- !app_assoc. reflexivity. }
  (* headers *)
  assert (exists any rest3, pem_headers (S (length (hd ++ rest2))) false (hd ++ rest2) = Some (any, rest3) /\
            rest3 = (if any then x0a :: rest2 else rest2)) as (any & rest3 & HH & R).
  { unfold hd. case_decide as HE.
    - exists false, rest2. split; [|reflexivity]. cbn [app pem_headers].
      destruct (decide (e = [])) as [Ee|Ee].
      + unfold rest2. rewrite Ee. cbn [length pem_lines app].
        rewrite decide_False by discriminate.
        unfold trl. replace (drop 1 pem_end ++ ty ++ dashes ++ x0a :: junk) with ((drop 1 pem_end ++ ty ++ dashes) ++ x0a :: junk) by (rewrite <- !app_assoc; reflexivity).
        rewrite get_line_nl by (repeat apply not_in_app; auto; apply not_in_dec; reflexivity).
        rewrite cut_char_none; [reflexivity|].
        intros I. apply trim_right_sub, drop_cr_sub in I. revert I. repeat apply not_in_app; auto; apply not_in_dec; reflexivity.
      + destruct (pem_lines_first (length e) e) as (l & r & El & Nl & [w Pl]); [lia|assumption|].
        assert (Forall b64_alpha l) as Al by (rewrite Pl in A; apply Forall_app in A; tauto).
        unfold rest2. rewrite El. rewrite <- app_assoc. rewrite decide_False by (destruct l; discriminate).
        change ((x0a :: r) ++ ?z) with (x0a :: r ++ z).
        rewrite get_line_nl by (apply (alpha_no x0a); [unfold b64_alpha; cbn; lia|assumption]).
        rewrite cut_char_none; [reflexivity|].
        intros I. apply trim_right_sub, drop_cr_sub in I. revert I. apply (alpha_no x3a); [unfold b64_alpha; cbn; lia|assumption].
    - exists true, (x0a :: rest2). split; [|reflexivity].
      rewrite <- app_assoc.
      destruct (pem_headers_skip h ([x0a] ++ rest2) H (S (length (flat_map pem_header h ++ [x0a] ++ rest2))) false) as (f' & any' & L & -> & ->); [lia|].
      rewrite bool_decide_eq_false_2 by assumption. cbn [orb negb].
      destruct f' as [|f']; [lia|]. cbn [pem_headers app]. rewrite decide_False by discriminate.
      rewrite get_line_blank. reflexivity. }
  (* the END line *)
  assert (exists body, pem_find_end any rest3 = Some (body, trl) /\ Forall armour_char body /\ nonl body = e) as (body & F & FA & FN).
  { assert (forall u, Forall armour_char u -> pem_find_end true (u ++ pem_end ++ trl) = Some (u, trl)) as FE.
    { intros u Hu. unfold pem_find_end. cbn [negb andb].
      change pem_end with (x0a :: x2d :: bs "----END "). apply cut_marker; [discriminate|]. apply armour_no_dash. assumption. }
    rewrite R. unfold rest2. destruct (decide (e = [])) as [Ee|Ee].
    - rewrite Ee. cbn [length pem_lines app]. destruct any.
      + exists []. split; [|split; [constructor|reflexivity]]. apply (FE []). constructor.
      + exists []. split; [|split; [constructor|reflexivity]]. unfold pem_find_end. rewrite has_prefix_app.
        cbn [negb andb]. rewrite drop_app_alt by reflexivity. reflexivity.
    - destruct (pem_lines_end (length e) e) as [u Eu]; [lia|assumption|].
      pose proof (pem_lines_chars (length e) e A) as Ch. rewrite Eu in Ch. apply Forall_app in Ch as [Cu _].
      assert (nonl u = e) as Nu.
      { pose proof (pem_lines_nonl (length e) e (Nat.le_refl _) A) as N. rewrite Eu, nonl_app in N.
        change (nonl [x0a]) with (@nil byte) in N. rewrite app_nil_r in N. exact N. }
      rewrite Eu. rewrite <- app_assoc. change ([x0a] ++ drop 1 pem_end ++ trl) with (pem_end ++ trl). destruct any.
      + exists (x0a :: u). split; [apply (FE (x0a :: u)); constructor; [right; reflexivity|assumption]|].
        split; [constructor; [right; reflexivity|assumption]|]. change (nonl (x0a :: u)) with (nonl u). exact Nu.
      + exists u. split; [|split; assumption]. rewrite <- (FE u Cu). unfold pem_find_end. cbn [negb andb].
        destruct (has_prefix (drop 1 pem_end) (u ++ pem_end ++ trl)) eqn:P; [|reflexivity].
        exfalso. apply has_prefix_iff in P as [r P]. destruct u as [|c u]; [cbn in Nu; congruence|].
        injection P as P _. subst c. inversion Cu as [|? ? [X|X] ?]; [unfold b64_alpha in X; cbn in X; lia|discriminate X]. }
  rewrite E. eapply pem_loop_found.
  - apply has_prefix_app.
  - rewrite drop_app_alt by reflexivity. rewrite (dashes_snoc ty). apply get_line_last;
      [rewrite <- dashes_snoc; apply not_in_app; [assumption|apply not_in_dec; reflexivity]|discriminate..].
  - symmetry. apply dashes_snoc.
  - exact HH.
  - exact F.
  - apply pem_tail_exact.
  - rewrite remove_blanks_id by assumption. unfold b64_decode. fold (nonl body). rewrite FN. apply b64_groups_encode.
Qed.

(** Without a BEGIN marker nothing is found. *)
Lemma cut_none_absent p s : (forall u v, s <> u ++ p ++ v) -> cut p s = None.
Proof. intros N. destruct (cut p s) as [[u v]|] eqn:E; [|reflexivity]. apply cut_inv in E. exfalso. eapply N. exact E. Qed.
Lemma pem_no_marker s : (forall u v, s <> u ++ bs "-----BEGIN " ++ v) -> pem_decode s = None.
Proof.
  intros N. unfold pem_decode. cbn [pem_loop].
  destruct (has_prefix (drop 1 pem_start) s) eqn:P.
  - apply has_prefix_iff in P as [r P]. exfalso. apply (N [] r). exact P.
  - rewrite cut_none_absent; [reflexivity|]. intros u v E. apply (N (u ++ [x0a]) v). rewrite <- app_assoc. exact E.
Qed.

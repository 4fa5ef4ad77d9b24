(** PEM blocks are found: the other direction of [CodecFacts.pem_sound]. *)
From Verif Require Export CodecFacts.
Local Open Scope Z_scope.


Definition blanks (t : bytes) : Prop := Forall (fun b => b = x20 \/ b = x09) t.
Lemma trim_blanks t : blanks t -> trim_right t = [].
Proof. induction 1 as [|b t H F IH]; [reflexivity|]. cbn [trim_right]. rewrite IH, decide_True by exact H. reflexivity. Qed.
Lemma trim_app_blanks s t : blanks t -> trim_right (s ++ t) = trim_right s.
Proof. intros H. induction s as [|b s IH]; [apply trim_blanks; exact H|]. cbn [app trim_right]. rewrite IH. reflexivity. Qed.
Lemma blanks_no c t : blanks t -> c <> x20 -> c <> x09 -> c ∉ t.
Proof. intros F A B I. unfold blanks in F. rewrite Forall_forall in F. destruct (F _ I); auto. Qed.
Lemma drop_cr_end s : drop_cr (s ++ [x0d]) = s.
Proof. unfold drop_cr. rewrite last_snoc, decide_True by reflexivity. rewrite app_length. cbn [length]. replace (length s + 1 - 1)%nat with (length s) by lia. apply take_app. Qed.
Lemma drop_cr_none s : last s <> Some x0d -> drop_cr s = s.
Proof. intros H. unfold drop_cr. rewrite decide_False by exact H. reflexivity. Qed.
Lemma drop_cr_blank_end l w : blank_end w -> (w = [] -> last l <> Some x0d) -> last l <> Some x0d -> trim_right (drop_cr (l ++ w)) = trim_right l.
Proof.
  intros (t & cr & -> & F & C) _ H. destruct C as [-> | ->].
  - rewrite app_nil_r. rewrite drop_cr_none; [apply trim_app_blanks; exact F|]. destruct t as [|c t] using rev_ind; [rewrite app_nil_r; exact H|].
    rewrite app_assoc, last_snoc. apply Forall_app in F as [_ F]. inversion F as [|? ? D]; subst. intros [= ->]. destruct D; discriminate.
  - rewrite app_assoc, drop_cr_end. apply trim_app_blanks. exact F.
Qed.
Lemma blank_end_no_nl w : blank_end w -> x0a ∉ w.
Proof.
  intros (t & cr & -> & F & C). apply not_in_app; [apply (blanks_no x0a t F); discriminate|]. destruct C as [-> | ->]; set_solver.
Qed.
Lemma get_line_blank_end l c w r : x0a ∉ l ++ [c] -> c <> x20 -> c <> x09 -> c <> x0d -> blank_end w -> get_line ((l ++ [c]) ++ w ++ x0a :: r) = (l ++ [c], r).
Proof.
  intros N A B D W. rewrite app_assoc. rewrite get_line_nl by (apply not_in_app; [exact N|apply blank_end_no_nl; exact W]).
  rewrite drop_cr_blank_end; [|exact W|intros _; rewrite last_snoc; congruence|rewrite last_snoc; congruence]. rewrite trim_right_id by assumption. reflexivity.
Qed.
Lemma get_line_to_end s : blank_to_end s -> fst (get_line s) = [].
Proof.
  intros [F|(w & r & -> & W)].
  - unfold get_line. rewrite cut_char_none by (apply (blanks_no x0a s F); discriminate). apply trim_blanks. exact F.
  - rewrite get_line_nl by (apply blank_end_no_nl; exact W). cbn [fst]. apply (drop_cr_blank_end []); [exact W|discriminate|discriminate].
Qed.
Lemma tail_complete ty rest : blank_to_end rest -> pem_tail_ok ty (ty ++ dashes ++ rest) = true.
Proof.
  intros B. unfold pem_tail_ok. rewrite app_assoc. rewrite decide_False by (rewrite !app_length; lia).
  rewrite take_app_alt by (rewrite app_length; reflexivity). rewrite drop_app_alt by (rewrite app_length; reflexivity).
  rewrite has_prefix_app, has_suffix_app, get_line_to_end by exact B. reflexivity.
Qed.
Lemma headers_complete hs rest : Forall header_line hs -> forall f any, (length (concat hs ++ rest) < f)%nat ->
  exists f' any', (length rest < f')%nat /\ any' = any || negb (bool_decide (hs = [])) /\ pem_headers f any (concat hs ++ rest) = pem_headers f' any' rest.
Proof.
  induction 1 as [|h hs (l & -> & N & I) F IH]; intros f any L.
  - exists f, any. cbn [concat app] in *. rewrite bool_decide_eq_true_2 by reflexivity. destruct any; auto.
  - destruct f as [|f]; [lia|]. cbn [concat] in *. rewrite <- !app_assoc in *. cbn [pem_headers app] in *. rewrite decide_False by (destruct l; discriminate).
    rewrite get_line_nl by exact N. destruct (cut_char_some x3a (trim_right (drop_cr l))) as (a & d & ->).
    { apply trim_right_keeps; [discriminate|discriminate|]. apply drop_cr_keeps; [discriminate|exact I]. }
    destruct (IH f true) as (f' & any' & L' & A & ->); [rewrite app_length in L; cbn [length] in L; lia|].
    exists f', any'. split; [exact L'|]. split; [|reflexivity]. cbn [orb] in A. rewrite A. rewrite bool_decide_eq_false_2 by (intros X; discriminate X). destruct any; reflexivity.
Qed.
(** The first occurrence. *)
Lemma cut_first p u v : (forall u1 u2, u = u1 ++ u2 -> u2 <> [] -> has_prefix p (u2 ++ p ++ v) = false) -> cut p (u ++ p ++ v) = Some (u, v).
Proof.
  induction u as [|c u IH]; intros H; cbn [app].
  - destruct (p ++ v) eqn:E; cbn [cut]; rewrite <- E, has_prefix_app, drop_app; reflexivity.
  - cbn [cut]. pose proof (H [] (c :: u) eq_refl ltac:(discriminate)) as X. cbn [app] in X. rewrite X. clear X. rewrite IH; [reflexivity|]. intros u1 u2 -> N. apply (H (c :: u1) u2); [reflexivity|exact N].
Qed.
Lemma prefix_split {A} (p a b : list A) : p `prefix_of` a ++ b -> p `prefix_of` a \/ exists q, p = a ++ q /\ q `prefix_of` b.
Proof.
  intros [r E]. destruct (decide (length p <= length a)%nat) as [L|L].
  - left. exists (drop (length p) a). apply (f_equal (take (length p))) in E as E1. rewrite take_app in E1. rewrite take_app_le in E1 by exact L. rewrite <- E1 at 1. symmetry. apply take_drop.
  - right. exists (drop (length a) p). apply (f_equal (take (length a))) in E as E1. rewrite take_app in E1. rewrite take_app_le in E1 by lia.
    split; [rewrite E1 at 1; symmetry; apply take_drop|]. exists r. apply (f_equal (drop (length a))) in E. rewrite drop_app, drop_app_le in E by lia. exact E.
Qed.
Lemma begin_found pre after : at_line pre -> no_marker pre ->
  (if has_prefix (drop 1 pem_start) (pre ++ bs "-----BEGIN " ++ after) then Some (drop (length pem_start - 1) (pre ++ bs "-----BEGIN " ++ after))
   else match cut pem_start (pre ++ bs "-----BEGIN " ++ after) with Some (_, after) => Some after | None => None end) = Some after.
Proof.
  intros [-> |[q ->]] NM.
  - cbn [app]. change (drop 1 pem_start) with (bs "-----BEGIN "). rewrite has_prefix_app. change (length pem_start - 1)%nat with (length (bs "-----BEGIN ")). rewrite drop_app. reflexivity.
  - assert (x0a ∉ bs "-----BEGIN ") as NB by (apply not_in_dec; reflexivity).
    assert (has_prefix (drop 1 pem_start) ((q ++ [x0a]) ++ bs "-----BEGIN " ++ after) = false) as ->.
    { apply not_true_iff_false. intros H. apply has_prefix_iff in H. change (drop 1 pem_start) with (bs "-----BEGIN ") in H. apply prefix_split in H as [[r E]|(r & E & _)].
      - apply (NM [] r). exact E.
      - apply NB. rewrite E. set_solver. }
    rewrite <- app_assoc. change ([x0a] ++ bs "-----BEGIN " ++ after) with (pem_start ++ after).
    rewrite cut_first; [reflexivity|]. intros u1 u2 -> N2. apply not_true_iff_false. intros H. apply has_prefix_iff in H. apply prefix_split in H as [[r E]|(r & E & P)].
    + destruct u2 as [|c u2]; [congruence|]. change pem_start with (x0a :: bs "-----BEGIN ") in E. injection E as -> E.
      apply (NM (u1 ++ [x0a]) (r ++ [x0a])). rewrite E. rewrite <- !app_assoc. reflexivity.
    + destruct u2 as [|c u2]; [congruence|]. destruct r as [|d r].
      * rewrite app_nil_r in E. apply (NM (u1 ++ [x0a]) [x0a]). rewrite <- E. rewrite <- !app_assoc. reflexivity.
      * destruct P as [r' P]. change pem_start with (x0a :: bs "-----BEGIN ") in P, E. injection P as <- _. injection E as _ E. apply NB. rewrite E. set_solver.
Qed.
Lemma base64_chars s b : base64_text s b -> Forall (fun c => b64_alpha c \/ c = x0a \/ c = x0d) s.
Proof.
  intros (ds & vs & n & E & F & _). assert (Forall b64_alpha (no_breaks s)) as A.
  { rewrite E. apply Forall_app. split; [|apply Forall_replicate; unfold b64_alpha; cbn; lia].
    clear E. induction F as [|c v ds vs D F IH]; constructor; [|exact IH]. apply unb64_digit in D. unfold unb64 in D. unfold b64_alpha. repeat case_decide; try lia. discriminate D. }
  clear E F. induction s as [|c s IH]; [constructor|]. unfold no_breaks in A. cbn [List.filter] in A. destruct (bool_decide (c = x0a \/ c = x0d)) eqn:B; cbn [negb] in A.
  - apply bool_decide_eq_true in B. constructor; [tauto|apply IH; exact A].
  - inversion A; subst. constructor; [tauto|apply IH; assumption].
Qed.
Lemma body_no c body b : base64_text (no_blanks body) b -> ~ b64_alpha c -> c <> x0a -> c <> x0d -> c <> x20 -> c <> x09 -> c ∉ body.
Proof.
  intros H A B C D E I. apply base64_chars in H. rewrite Forall_forall in H. specialize (H c). unfold no_blanks in H.
  destruct H as [X|[X|X]]; try congruence. apply elem_of_list_In, filter_In. split; [apply elem_of_list_In, I|]. rewrite bool_decide_eq_false_2 by tauto. reflexivity.
Qed.
Lemma pem_complete pre ty w hs body rest b :
  at_line pre -> no_marker pre -> blank_end w -> x0a ∉ ty -> Forall header_line hs -> at_line body -> base64_text (no_blanks body) b -> blank_to_end rest ->
  (body = [] -> hs = [] /\ x3a ∉ ty) ->
  pem_decode (pre ++ bs "-----BEGIN " ++ ty ++ bs "-----" ++ w ++ [x0a] ++ concat hs ++ body ++ bs "-----END " ++ ty ++ bs "-----" ++ rest) = Some (ty, b).
Proof.
  intros Ap NM W Nt Fh Ab Bb Br Em. set (rest2 := body ++ bs "-----END " ++ ty ++ bs "-----" ++ rest).
  set (rest1 := concat hs ++ rest2). change (bs "-----") with dashes in *.
  unfold pem_decode. set (n := length _). clearbody n. cbn [pem_loop]. cbv zeta. rewrite begin_found by assumption.
  assert (get_line (ty ++ dashes ++ w ++ [x0a] ++ rest1) = (ty ++ dashes, rest1)) as ->.
  { rewrite (dashes_snoc ty). rewrite (app_assoc ty), dashes_snoc. apply get_line_blank_end; try discriminate; [|exact W]. rewrite <- dashes_snoc. apply not_in_app; [exact Nt|apply not_in_dec; reflexivity]. }
  rewrite has_suffix_app. cbn [negb]. replace (length (ty ++ dashes) - length dashes)%nat with (length ty) by (rewrite app_length; lia). rewrite take_app.
  assert (x3a ∉ body) as Nc by (eapply body_no; [exact Bb|unfold b64_alpha; cbn; lia|discriminate..]).
  assert (x2d ∉ body) as Nd by (eapply body_no; [exact Bb|unfold b64_alpha; cbn; lia|discriminate..]).
  destruct (headers_complete hs rest2 Fh (S (length rest1)) false) as (f' & any & Lf & An & Eh); [unfold rest1; lia|]. fold rest1 in Eh. rewrite Eh. clear Eh. cbn [orb] in An.
  assert (pem_headers f' any rest2 = Some (any, rest2)) as ->.
  { destruct f' as [|f']; [lia|]. cbn [pem_headers]. destruct Ab as [-> |[q ->]].
    - destruct (Em eq_refl) as [_ Nct]. unfold rest2. cbn [app]. rewrite decide_False by discriminate.
      destruct (get_line (bs "-----END " ++ ty ++ dashes ++ rest)) as [l r] eqn:G. assert (l = bs "-----END " ++ ty ++ dashes) as ->.
      { replace (bs "-----END " ++ ty ++ dashes ++ rest) with (((bs "-----END " ++ ty ++ bs "----") ++ [x2d]) ++ rest) in G by (rewrite <- !app_assoc; reflexivity).
        destruct Br as [F|(w' & r' & -> & W')].
        - unfold get_line in G. rewrite cut_char_none in G.
          + apply (f_equal fst) in G. cbn [fst] in G. rewrite <- G. rewrite trim_app_blanks by exact F. rewrite trim_right_id by discriminate. rewrite <- !app_assoc. reflexivity.
          + repeat apply not_in_app; [apply not_in_dec; reflexivity|exact Nt|apply not_in_dec; reflexivity|apply not_in_dec; reflexivity|apply (blanks_no x0a rest F); discriminate].
        - rewrite get_line_blank_end in G; [|repeat apply not_in_app; [apply not_in_dec; reflexivity|exact Nt|apply not_in_dec; reflexivity|apply not_in_dec; reflexivity]|discriminate|discriminate|discriminate|exact W'].
          apply (f_equal fst) in G. cbn [fst] in G. rewrite <- G. rewrite <- !app_assoc. reflexivity. }
      rewrite cut_char_none; [reflexivity|]. repeat apply not_in_app; [apply not_in_dec; reflexivity|exact Nct|apply not_in_dec; reflexivity].
    - unfold rest2. rewrite decide_False by (destruct q; discriminate).
      destruct (cut_char_some x0a (q ++ [x0a]) ltac:(set_solver)) as (a & d & Ec). pose proof (cut_inv _ _ _ _ Ec) as Ei.
      assert (x0a ∉ a) as Na.
      { clear - Ec. revert a d Ec. generalize (q ++ [x0a]) as s. induction s as [|c s IH]; intros a d; cbn [cut]; destruct (has_prefix [x0a] _) eqn:P; try (intros [= <- <-]; set_solver); try discriminate.
        destruct (cut [x0a] s) as [[u' v']|]; [|discriminate]. intros [= <- <-]. specialize (IH _ _ eq_refl). apply not_elem_of_cons. split; [|exact IH].
        intros <-. rewrite (proj2 (has_prefix_iff [x0a] (x0a :: s)) (ex_intro _ s eq_refl)) in P. discriminate P. }
      rewrite Ei. rewrite <- !app_assoc. change ([x0a] ++ d ++ ?z) with (x0a :: d ++ z). rewrite get_line_nl by exact Na.
      rewrite cut_char_none; [reflexivity|]. intros I. apply trim_right_sub, drop_cr_sub in I. apply Nc. rewrite Ei. set_solver. }
  assert (exists body', pem_find_end any rest2 = Some (body', ty ++ dashes ++ rest) /\ b64_decode (remove_blanks body') = Some b) as (body' & -> & Bd).
  { destruct Ab as [-> |[q ->]].
    - destruct (Em eq_refl) as [-> _]. rewrite bool_decide_eq_true_2 in An by reflexivity. subst any. exists []. split; [|apply b64_exact; exact Bb].
      unfold pem_find_end, rest2. cbn [app negb andb]. change (drop 1 pem_end) with (bs "-----END "). rewrite has_prefix_app. change (length pem_end - 1)%nat with (length (bs "-----END ")). rewrite drop_app. reflexivity.
    - exists q. unfold rest2. rewrite <- app_assoc. change ([x0a] ++ bs "-----END " ++ ?z) with (pem_end ++ z). split.
      + assert (x2d ∉ q) as Nq by set_solver. unfold pem_find_end. assert (negb any && has_prefix (drop 1 pem_end) (q ++ pem_end ++ ty ++ dashes ++ rest) = false) as ->.
        { apply andb_false_iff. right. apply not_true_iff_false. intros H. apply has_prefix_iff in H as [r H]. destruct q as [|c q]; [discriminate H|]. injection H as -> _. apply Nq. left. }
        change pem_end with (x0a :: x2d :: bs "----END "). apply cut_marker; [discriminate|exact Nq].
      + apply b64_exact in Bb. rewrite <- Bb. unfold b64_decode. f_equal. unfold no_blanks, remove_blanks.
        rewrite List.filter_app. cbn [List.filter]. rewrite bool_decide_eq_false_2 by (intros [X|X]; discriminate X). cbn [negb]. rewrite List.filter_app. cbn [List.filter].
        rewrite bool_decide_eq_true_2 by (left; reflexivity). cbn [negb]. rewrite app_nil_r. reflexivity. }
  rewrite tail_complete by exact Br. rewrite Bd. reflexivity.
Qed.

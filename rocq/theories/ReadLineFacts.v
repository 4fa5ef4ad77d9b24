(** Proofs about ReadLine.v. *)
From Verif Require Export SpecReadLine PemFacts.
Local Open Scope Z_scope.

(** *** White space *)
Lemma spaces_iff w : w ∈ spaces <-> white_space w.
Proof.
  split.
  - intros H. unfold spaces in H. unfold white_space.
    repeat (apply elem_of_cons in H as [-> | H]);
      [ first [ left; eexists; split; [reflexivity|cbn; lia]
              | right; left; eexists; split; [reflexivity|cbn; lia]
              | right; right; left; reflexivity
              | right; right; right; left; eexists; split; [reflexivity|cbn; lia]
              | right; right; right; right; left; reflexivity
              | right; right; right; right; right; reflexivity ] .. | inversion H].
  - assert (forall (P : byte -> Prop), (forall n, 0 <= n < 256 -> P (zb n)) -> forall b, P b) as A.
    { intros P H b. rewrite <- (zb_bz b). apply H, bz_range. }
    intros H. unfold white_space in H.
    assert (forall b n, bz b = n -> b = zb n) as Z. { intros b n <-. symmetry. apply zb_bz. }
    destruct H as [(b & -> & H)|[(b & -> & H)|[->|[(b & -> & H)|[->| ->]]]]].
    + assert (bz b = 9 \/ bz b = 10 \/ bz b = 11 \/ bz b = 12 \/ bz b = 13 \/ bz b = 32) as D by lia.
      repeat destruct D as [D|D]; apply Z in D; subst b; cbv; repeat constructor.
    + destruct H as [D|D]; apply Z in D; subst b; cbv; repeat constructor.
    + cbv; repeat constructor.
    + assert (bz b = 128 \/ bz b = 129 \/ bz b = 130 \/ bz b = 131 \/ bz b = 132 \/ bz b = 133 \/ bz b = 134 \/ bz b = 135
        \/ bz b = 136 \/ bz b = 137 \/ bz b = 138 \/ bz b = 168 \/ bz b = 169 \/ bz b = 175) as D by lia.
      repeat destruct D as [D|D]; apply Z in D; subst b; cbv; repeat constructor.
    + cbv; repeat constructor.
    + cbv; repeat constructor.
Qed.
Lemma find_some_iff {A} (p : A -> bool) l x : List.find p l = Some x -> x ∈ l /\ p x = true.
Proof. intros H. apply List.find_some in H as [H1 H2]. split; [apply elem_of_list_In|]; assumption. Qed.
Lemma lead_space_some s w : lead_space s = Some w -> white_space w /\ s = w ++ drop (length w) s.
Proof.
  intros H. apply find_some_iff in H as [H1 H2]. split; [apply spaces_iff; assumption|].
  apply has_prefix_iff in H2 as [r ->]. rewrite drop_app. reflexivity.
Qed.
Lemma lead_space_none s : lead_space s = None -> forall w u, white_space w -> s <> w ++ u.
Proof.
  intros H w u W E. apply spaces_iff, elem_of_list_In in W. apply (List.find_none _ _ H) in W.
  subst s. rewrite has_prefix_app in W. discriminate.
Qed.
Lemma has_suffix_iff p s : has_suffix p s = true <-> exists u, s = u ++ p.
Proof.
  unfold has_suffix. rewrite andb_true_iff, !bool_decide_eq_true. split.
  - intros [H1 H2]. exists (take (length s - length p) s). rewrite <- H2 at 2. symmetry. apply take_drop.
  - intros [u ->]. rewrite app_length. split; [lia|]. apply drop_app_alt. lia.
Qed.
Lemma tail_space_some s w : tail_space s = Some w -> white_space w /\ s = take (length s - length w) s ++ w.
Proof.
  intros H. apply find_some_iff in H as [H1 H2]. split; [apply spaces_iff; assumption|].
  apply has_suffix_iff in H2 as [r ->]. rewrite app_length. rewrite take_app_alt by lia. reflexivity.
Qed.
Lemma tail_space_none s : tail_space s = None -> forall w u, white_space w -> s <> u ++ w.
Proof.
  intros H w u W E. apply spaces_iff, elem_of_list_In in W. apply (List.find_none _ _ H) in W.
  assert (has_suffix w s = true) by (apply has_suffix_iff; eauto). congruence.
Qed.
Lemma white_nonempty w : white_space w -> (0 < length w)%nat.
Proof. intros [(b & -> & _)|[(b & -> & _)|[->|[(b & -> & _)|[->| ->]]]]]; cbn; lia. Qed.

Lemma trim_left_spec f s : (length s <= f)%nat ->
  exists a, s = concat a ++ trim_left f s /\ Forall white_space a /\ forall w u, white_space w -> trim_left f s <> w ++ u.
Proof.
  revert s. induction f as [|f IH]; intros s L; cbn [trim_left].
  - exists []. destruct s; [|cbn in L; lia]. split_and!; [reflexivity|constructor|]. intros w u W E.
    apply white_nonempty in W. destruct w; [cbn in W; lia|discriminate].
  - destruct (lead_space s) as [w|] eqn:E.
    + apply lead_space_some in E as [W E]. pose proof (white_nonempty w W).
      assert (length s = length w + length (drop (length w) s))%nat as L2 by (rewrite E at 1; apply app_length).
      destruct (IH (drop (length w) s)) as (a & E2 & A & N); [lia|].
      exists (w :: a). split_and!; [|constructor; assumption|exact N]. cbn [concat]. rewrite <- app_assoc, <- E2. exact E.
    + exists []. split_and!; [reflexivity|constructor|apply lead_space_none; assumption].
Qed.
Lemma trim_tail_spec f s : (length s <= f)%nat ->
  exists b, s = trim_tail f s ++ concat b /\ Forall white_space b /\ forall w u, white_space w -> trim_tail f s <> u ++ w.
Proof.
  revert s. induction f as [|f IH]; intros s L; cbn [trim_tail].
  - exists []. destruct s; [|cbn in L; lia]. split_and!; [reflexivity|constructor|]. intros w u W E.
    apply white_nonempty in W. symmetry in E. apply app_eq_nil in E as [_ ->]. cbn in W. lia.
  - destruct (tail_space s) as [w|] eqn:E.
    + apply tail_space_some in E as [W E]. pose proof (white_nonempty w W).
      set (r := take (length s - length w) s) in *.
      assert (length s = length r + length w)%nat as L2 by (rewrite E at 1; apply app_length).
      destruct (IH r) as (b & E2 & B & N); [lia|].
      exists (b ++ [w]). split_and!; [|apply Forall_app; auto|exact N].
      rewrite concat_app. cbn [concat]. rewrite app_nil_r, app_assoc, <- E2. exact E.
    + exists []. rewrite app_nil_r. split_and!; [reflexivity|constructor|apply tail_space_none; assumption].
Qed.

Definition contb (b : byte) : bool := bool_decide (128 <= bz b < 192).
Lemma white_head w : white_space w -> exists b r, w = b :: r /\ contb b = false.
Proof.
  intros W. apply spaces_iff in W. unfold spaces in W.
  repeat (apply elem_of_cons in W as [-> | W]); [do 2 eexists; split; reflexivity .. | inversion W].
Qed.
Lemma white_rest w : white_space w -> forall b r, w = b :: r -> Forall (fun c => contb c = true) r.
Proof.
  intros W. apply spaces_iff in W. unfold spaces in W.
  repeat (apply elem_of_cons in W as [-> | W]); [intros b r [= <- <-]; repeat constructor .. | inversion W].
Qed.
(** No white space is the beginning of another. *)
Lemma white_prefix w w' u u' : white_space w -> white_space w' -> w ++ u = w' ++ u' -> w = w'.
Proof.
  assert (forall w w' u u', white_space w -> white_space w' -> (length w <= length w')%nat -> w ++ u = w' ++ u' -> w = w') as A.
  { clear. intros w w' u u' W W' L E.
    assert (w = take (length w) w') as P.
    { transitivity (take (length w) (w ++ u)); [symmetry; apply take_app|]. rewrite E. apply take_app_le. assumption. }
    apply spaces_iff in W. apply spaces_iff in W'.
    assert (forallb (fun a => forallb (fun b => negb (bool_decide (a = take (length a) b)) || bool_decide (a = b)) spaces) spaces = true) as T
      by reflexivity.
    rewrite forallb_forall in T. apply elem_of_list_In in W. apply elem_of_list_In in W'.
    specialize (T w W). cbn beta in T. rewrite forallb_forall in T. specialize (T w' W').
    rewrite bool_decide_eq_true_2 in T by assumption. cbn in T. apply bool_decide_eq_true in T. exact T. }
  intros W W' E. destruct (Nat.le_ge_cases (length w) (length w')) as [L|L]; [eapply A; eauto|].
  symmetry. eapply A; eauto.
Qed.

Lemma trim_space_spec s : trimmed s (trim_space s).
Proof.
  unfold trim_space. destruct (trim_left_spec (length s) s) as (a & E & A & N); [lia|].
  set (t := trim_left (length s) s) in *. destruct (trim_tail_spec (length t) t) as (b & E2 & B & N2); [lia|].
  set (r := trim_tail (length t) t) in *. exists a, b. split_and!; auto.
  - rewrite <- E2. exact E.
  - intros w u W H. apply (N w (u ++ concat b) W). rewrite E2, H, <- app_assoc. reflexivity.
Qed.

(** A stretch [t] that is not blank at its start stays so when white space follows,
    unless it is empty. *)
Lemma no_lead_app t b : t <> [] -> Forall white_space b -> (forall w u, white_space w -> t <> w ++ u) ->
  forall w u, white_space w -> t ++ concat b <> w ++ u.
Proof.
  intros T B N w u W E. destruct (Nat.le_gt_cases (length w) (length t)) as [L|L].
  - apply (N w (drop (length w) t) W). rewrite <- (take_drop (length w) t) at 1. f_equal.
    rewrite <- (take_app_le t (concat b)) by assumption. rewrite E. apply take_app.
  - assert (exists c, w = t ++ c) as [c ->].
    { exists (drop (length t) w). rewrite <- (take_drop (length t) w) at 1. f_equal.
      rewrite <- (take_app_le w u) by lia. rewrite <- E. apply take_app. }
    rewrite <- app_assoc in E. apply app_inv_head in E. rewrite app_length in L. destruct c as [|c0 c]; [cbn in L; lia|].
    destruct b as [|w' b]; [discriminate|]. apply Forall_cons in B as [W' _].
    destruct (white_head w' W') as (h & r & -> & H). cbn in E. injection E as -> _.
    destruct t as [|t0 t]; [congruence|].
    pose proof (white_rest _ W t0 (t ++ c0 :: c) eq_refl) as R. apply Forall_app in R as [_ R]. apply Forall_cons in R as [R _]. congruence.
Qed.
Lemma lead_unique a a' r r' : Forall white_space a -> Forall white_space a' ->
  (forall w u, white_space w -> r <> w ++ u) -> (forall w u, white_space w -> r' <> w ++ u) ->
  concat a ++ r = concat a' ++ r' -> r = r'.
Proof.
  intros A. revert a'. induction A as [|w a W A IH]; intros a' A' N N' E; destruct A' as [|w' a' W' A'].
  - exact E.
  - exfalso. cbn in E. rewrite <- app_assoc in E. exact (N w' _ W' E).
  - exfalso. cbn in E. rewrite <- app_assoc in E. symmetry in E. exact (N' w _ W E).
  - cbn in E. rewrite <- !app_assoc in E. pose proof (white_prefix w w' _ _ W W' E) as ->.
    apply app_inv_head in E. eauto.
Qed.
Lemma tail_unique b b' t t' : Forall white_space b -> Forall white_space b' ->
  (forall w u, white_space w -> t <> u ++ w) -> (forall w u, white_space w -> t' <> u ++ w) ->
  t ++ concat b = t' ++ concat b' -> t = t'.
Proof.
  (* from the end: no white space is the end of another *)
  assert (forall w w' u u', white_space w -> white_space w' -> u ++ w = u' ++ w' -> w = w') as Suf.
  { assert (forall w w' u u', white_space w -> white_space w' -> (length w <= length w')%nat -> u ++ w = u' ++ w' -> w = w') as Q.
    { clear. intros w w' u u' W W' L E.
      assert (exists c, w' = c ++ w) as [c ->].
      { apply app_eq_inv in E as [(k & E1 & E2)|(k & E1 & E2)]; [eauto|].
        exists []. rewrite E2, app_length in L. destruct k; [cbn in *; congruence|cbn in L; lia]. }
      destruct (white_head w W) as (h & r & -> & H). destruct c as [|c0 c]; [reflexivity|].
      pose proof (white_rest _ W' c0 (c ++ h :: r) eq_refl) as R. apply Forall_app in R as [_ R]. apply Forall_cons in R as [R _]. congruence. }
    intros w w' u u' W W' E. destruct (Nat.le_ge_cases (length w) (length w')) as [L|L]; [eapply Q; eauto|].
    symmetry. eapply Q; eauto. }
  intros B. revert b'. induction b as [|w b IH] using rev_ind; intros b' B' N N' E.
  - cbn in E. rewrite app_nil_r in E. induction b' as [|w' b' _] using rev_ind; [cbn in E; rewrite app_nil_r in E; exact E|].
    exfalso. apply Forall_app in B' as [_ B']. apply Forall_cons in B' as [W' _]. rewrite concat_app in E. cbn in E. rewrite app_nil_r, app_assoc in E.
    exact (N w' _ W' E).
  - apply Forall_app in B as [B B1]. apply Forall_cons in B1 as [W _]. specialize (IH B).
    rewrite concat_app in E. cbn in E. rewrite app_nil_r, app_assoc in E.
    clear - Suf IH W B' N N' E. destruct b' as [|w' b' _] using rev_ind.
    + exfalso. cbn in E. rewrite app_nil_r in E. symmetry in E. exact (N' w _ W E).
    + apply Forall_app in B' as [B' B1']. apply Forall_cons in B1' as [W' _].
      rewrite concat_app in E. cbn in E. rewrite app_nil_r, app_assoc in E.
      pose proof (Suf w w' _ _ W W' E) as ->. apply app_inv_tail in E. eauto.
Qed.

Lemma concat_white_ends b : Forall white_space b -> b <> [] -> exists w u, white_space w /\ concat b = w ++ u.
Proof. intros B N. destruct B as [|w b W B]; [congruence|]. exists w, (concat b). auto. Qed.
Lemma trimmed_unique s t t' : trimmed s t -> trimmed s t' -> t = t'.
Proof.
  intros (a & b & E & A & B & N1 & N2) (a' & b' & E' & A' & B' & N1' & N2').
  assert (forall a b a' b' t', Forall white_space a -> Forall white_space b -> Forall white_space a' -> Forall white_space b' ->
    (forall w u, white_space w -> t' <> w ++ u) -> concat a ++ concat b = concat a' ++ t' ++ concat b' -> t' = []) as Z.
  { clear. intros a b a' b' t A B A' B' N E. destruct t as [|t0 t]; [reflexivity|]. exfalso.
    assert (forall w u, white_space w -> (t0 :: t) ++ concat b' <> w ++ u) as N' by (apply no_lead_app; auto; discriminate).
    rewrite <- concat_app in E. assert (Forall white_space (a ++ b)) as AB by (apply Forall_app; auto).
    assert ([] = (t0 :: t) ++ concat b') as K; [|discriminate].
    apply (lead_unique (a ++ b) a' [] ((t0 :: t) ++ concat b')); auto.
    - intros w u W H. apply white_nonempty in W. destruct w; [cbn in W; lia|discriminate].
    - rewrite app_nil_r. exact E. }
  destruct t as [|t0 t].
  { symmetry. eapply (Z a b a' b' t'); eauto. rewrite <- E'. symmetry. exact E. }
  destruct t' as [|t0' t'].
  { eapply (Z a' b' a b (t0 :: t)); eauto. rewrite <- E. symmetry. exact E'. }
  eapply (tail_unique b b'); eauto. eapply (lead_unique a a'); eauto.
  - apply no_lead_app; auto; discriminate.
  - apply no_lead_app; auto; discriminate.
  - rewrite <- E. exact E'.
Qed.
Lemma trim_space_iff s t : trim_space s = t <-> trimmed s t.
Proof. split; [intros <-; apply trim_space_spec|]. intros T. eapply trimmed_unique; [apply trim_space_spec|exact T]. Qed.
Lemma trim_nil : trim_space [] = [].
Proof. reflexivity. Qed.

(** *** Reading *)
Lemma feeds_app i u i1 v i2 : feeds i u i1 -> feeds i1 v i2 -> feeds i (u ++ v) i2.
Proof.
  induction 1 as [i|a b i u i' N N2 F IH|a i u i' N F IH]; intros G; [exact G| |].
  - rewrite <- app_assoc. constructor; auto.
  - rewrite <- app_assoc. constructor; auto.
Qed.
Lemma feeds_pending i u i' : feeds i u i' -> pending i = (length u + pending i')%nat.
Proof.
  unfold pending. induction 1 as [i|a b i u i' N N2 F IH|a i u i' N F IH]; [reflexivity| |]; cbn in *; rewrite ?app_length in *; lia.
Qed.
Lemma os_read_cases n i p i' : (0 < n)%nat -> os_read n i = (p, i') ->
  (p = [] /\ at_end i i') \/
  (p <> [] /\ (length p <= n)%nat /\ feeds i p i' /\
   exists r i1, i = (p ++ r) :: i1 /\ ((r = [] /\ i' = i1) \/ (r <> [] /\ i' = r :: i1 /\ length p = n))).
Proof.
  intros L. unfold os_read. destruct i as [|c i].
  { intros [= <- <-]. left. split; [reflexivity|constructor]. }
  intros [= <- E]. destruct c as [|b c].
  { left. rewrite take_nil. rewrite drop_nil, decide_True in E by reflexivity. subst. split; [reflexivity|constructor]. }
  right. assert (take n (b :: c) <> []) as T by (destruct n; [lia|discriminate]).
  split; [exact T|]. split; [rewrite take_length; lia|].
  destruct (decide (drop n (b :: c) = [])) as [D|D]; subst i'.
  - assert (take n (b :: c) = b :: c) as -> by (rewrite <- (take_drop n (b :: c)) at 2; rewrite D; symmetry; apply app_nil_r).
    split.
    + rewrite <- (app_nil_r (b :: c)) at 2. constructor; [discriminate|constructor].
    + exists [], i. rewrite app_nil_r. auto.
  - split.
    + rewrite <- (take_drop n (b :: c)) at 1. rewrite <- (app_nil_r (take n (b :: c))) at 2. constructor; auto. constructor.
    + exists (drop n (b :: c)), i. rewrite take_drop. split; [reflexivity|]. right. split_and!; auto.
      rewrite take_length. assert (length (drop n (b :: c)) <> 0)%nat as Z by (destruct (drop n (b :: c)); [congruence|discriminate]).
      rewrite drop_length in Z. lia.
Qed.

Lemma cut_nl_none s : cut [x0a] s = None <-> x0a ∉ s.
Proof.
  split.
  - intros E I. apply elem_of_list_split in I as (u & v & ->).
    destruct (cut [x0a] (u ++ x0a :: v)) eqn:K; [discriminate|].
    clear E. induction u as [|b u IH]; cbn in K.
    + discriminate.
    + destruct (has_prefix [x0a] (b :: u ++ x0a :: v)); [discriminate|].
      destruct (cut [x0a] (u ++ x0a :: v)) as [[? ?]|]; [discriminate|auto].
  - intros N. apply cut_none_absent. intros u v ->. apply N. apply elem_of_app. right. cbn. left.
Qed.
Lemma cut_nl_some s l r : cut [x0a] s = Some (l, r) -> s = l ++ [x0a] ++ r /\ x0a ∉ l.
Proof.
  revert l. induction s as [|b s IH]; intros l E.
  { cbn in E. discriminate. }
  cbn [cut] in E. destruct (has_prefix [x0a] (b :: s)) eqn:P.
  - injection E as <- <-. apply has_prefix_iff in P as [u E]. cbn in E. injection E as -> ->. split; [reflexivity|]. intros H. inversion H.
  - destruct (cut [x0a] s) as [[u v]|] eqn:K; [|discriminate]. injection E as <- <-. destruct (IH u eq_refl) as [-> N].
    split; [reflexivity|]. intros H. apply elem_of_cons in H as [<-|H]; [|auto].
    cbn in P. unfold has_prefix in P. apply bool_decide_eq_false in P. apply P. reflexivity.
Qed.
Lemma cut_nl_app l r : x0a ∉ l -> cut [x0a] (l ++ x0a :: r) = Some (l, r).
Proof.
  intros N. induction l as [|b l IH]; [reflexivity|].
  cbn [app cut]. destruct (has_prefix [x0a] (b :: l ++ x0a :: r)) eqn:P.
  - apply has_prefix_iff in P as [u E]. cbn in E. injection E as -> _. exfalso. apply N. left.
  - rewrite IH; [reflexivity|]. intros H. apply N. right. exact H.
Qed.

Definition full (buf : bytes) : nat := if decide (bufSize <= length buf)%nat then 1 else 0.
Lemma bufSize_pos : (1 < bufSize)%nat.
Proof. unfold bufSize. lia. Qed.
Lemma bufSize_val : bufSize = Z.to_nat 4096.
Proof. reflexivity. Qed.
Local Opaque bufSize.
Lemma read_string_spec f : forall acc buf i r i',
  read_string f acc buf i = (r, i') -> x0a ∉ acc -> (length buf <= bufSize)%nat ->
  (exists q, length acc = (q * bufSize)%nat) -> (2 * pending i + full buf < f)%nat ->
  match r with
  | Some l =>
      (exists line rest, buf = line ++ [x0a] ++ rest /\ x0a ∉ line /\ l = acc ++ line ++ [x0a] /\ i' = i) \/
      (x0a ∉ buf /\ exists u0 p line lost, feeds i (u0 ++ p) i' /\ (acc ++ buf ++ u0) ++ p = line ++ [x0a] ++ lost /\
         l = line ++ [x0a] /\ x0a ∉ line /\ x0a ∉ u0 /\ x0a ∈ p /\
         (exists s i1, feeds i u0 ((p ++ s) :: i1) /\
            ((s = [] /\ i' = i1) \/ (s <> [] /\ i' = s :: i1 /\ exists q, length (acc ++ buf ++ u0 ++ p) = (q * bufSize)%nat))) /\
         forall k q, (0 < k < length p)%nat -> (length (acc ++ buf ++ u0) + k <> q * bufSize)%nat)
  | None => exists u i0, feeds i u i0 /\ at_end i0 i' /\ x0a ∉ acc ++ buf ++ u
  end.
Proof.
  induction f as [|f IH]; intros acc buf i r i' E NA LB [q QA] F; [lia|].
  cbn [read_string] in E. destruct (cut [x0a] buf) as [[l rest]|] eqn:K.
  { injection E as <- <-. apply cut_nl_some in K as [-> N]. left. eauto 10. }
  apply cut_nl_none in K.
  destruct (decide (bufSize <= length buf)%nat) as [L|L].
  { apply IH in E; [| | cbn [length]; lia | | ].
    - destruct r as [l|].
      + destruct E as [(line & rest & E & _)|(_ & u0 & p & line & lost & F1 & E1 & E2 & N1 & N2 & N3 & (s & i1 & F2 & B) & BB)].
        { symmetry in E. apply app_eq_nil in E as [_ E]. discriminate. }
        right. split; [exact K|]. exists u0, p, line, lost.
        rewrite <- !app_assoc in *. cbn [app] in *. split_and!; auto. eauto.
      + destruct E as (u & i0 & F1 & A & N). exists u, i0. rewrite <- app_assoc in N. auto.
    - intros H. apply elem_of_app in H as [H|H]; auto.
    - exists (S q). rewrite app_length. rewrite Nat.mul_succ_l. lia.
    - unfold full in *. rewrite decide_True in F by lia. pose proof bufSize_pos. rewrite decide_False by (cbn [length]; lia). lia. }
  destruct (os_read (bufSize - length buf) i) as [p i1] eqn:R.
  apply os_read_cases in R; [|lia]. destruct R as [[-> A]|(NP & LP & FP & s & i2 & Ei & B)].
  { injection E as <- <-. exists [], i. split_and!; [constructor|exact A|]. rewrite app_nil_r.
    intros H. apply elem_of_app in H as [H|H]; auto. }
  assert (read_string f acc (buf ++ p) i1 = (r, i')) as E' by (destruct p; [congruence|exact E]). clear E.
  apply feeds_pending in FP as PP. assert (length p <> 0)%nat as LP0 by (destruct p; [congruence|discriminate]).
  apply IH in E'; [|assumption|rewrite app_length; lia|eauto|].
  - destruct r as [l|].
    + right. split; [exact K|].
      destruct E' as [(line & rest & E & N & -> & ->)|(NN & u0 & p1 & line & lost & F1 & E1 & E2 & N1 & N2 & N3 & (s1 & i3 & F2 & B2) & BB)].
      * exists [], p, (acc ++ line), rest. cbn [app]. rewrite !app_nil_r.
        assert (x0a ∈ p) as IP.
        { assert (x0a ∈ buf ++ p) as H by (rewrite E; apply elem_of_app; right; left). apply elem_of_app in H as [H|H]; [congruence|exact H]. }
        split_and!; auto.
        -- rewrite <- !app_assoc. f_equal. exact E.
        -- rewrite <- app_assoc. reflexivity.
        -- intros H. apply elem_of_app in H as [H|H]; auto.
        -- intros H. inversion H.
        -- exists s, i2. subst i. split; [constructor|]. destruct B as [B|(B1 & B2 & B3)]; [auto|]. right. split_and!; auto.
           exists (S q). rewrite !app_length. rewrite Nat.mul_succ_l. lia.
        -- intros k q' Hk H. rewrite app_length in H. pose proof bufSize_pos.
           assert (q * bufSize < q' * bufSize)%nat by lia. assert (q' * bufSize < S q * bufSize)%nat by (rewrite Nat.mul_succ_l; lia).
           apply Nat.mul_lt_mono_pos_r in H1; [|lia]. apply Nat.mul_lt_mono_pos_r in H2; lia.
      * exists (p ++ u0), p1, line, lost.
        assert (x0a ∉ p) as NP1 by (intros H; apply NN; apply elem_of_app; auto).
        split_and!; auto.
        -- rewrite <- app_assoc. eapply feeds_app; eauto.
        -- rewrite <- E1. rewrite <- !app_assoc. reflexivity.
        -- intros H. apply elem_of_app in H as [H|H]; auto.
        -- exists s1, i3. split; [eapply feeds_app; eauto|]. destruct B2 as [B2|(B21 & B22 & q' & B23)]; [auto|]. right. split_and!; auto.
           exists q'. rewrite <- B23. rewrite !app_length. lia.
        -- intros k q' Hk. specialize (BB k q' Hk). rewrite !app_length in *. lia.
    + destruct E' as (u & i0 & F1 & A & N). exists (p ++ u), i0. split_and!; auto; [eapply feeds_app; eauto|].
      intros H. apply N. rewrite <- app_assoc. exact H.
  - unfold full. destruct (decide (bufSize <= length (buf ++ p))%nat); lia.
Qed.

Lemma read_line_spec i r i' : read_line i = (r, i') ->
  match r with
  | Some t => exists u0 p line lost, feeds i (u0 ++ p) i' /\ u0 ++ p = line ++ [x0a] ++ lost /\ x0a ∉ line /\
      trimmed (line ++ [x0a]) t /\ last_read i u0 p i' /\ (length lost < bufSize)%nat
  | None => exists u i0, feeds i u i0 /\ at_end i0 i' /\ x0a ∉ u
  end.
Proof.
  unfold read_line. destruct (read_string (read_fuel i) [] [] i) as [r0 i0] eqn:E. intros H.
  assert (i0 = i') as -> by (destruct r0; congruence).
  apply read_string_spec in E; [|intros K; inversion K|cbn [length]; lia|exists 0%nat; reflexivity|].
  2:{ unfold full, read_fuel. rewrite decide_False by (pose proof bufSize_pos; cbn [length]; lia). lia. }
  destruct r0 as [l|].
  - injection H as <-. destruct E as [(line & rest & E & _)|(_ & u0 & p & line & lost & F1 & E1 & E2 & N1 & N2 & N3 & (s & i1 & F2 & B) & BB)].
    { symmetry in E. apply app_eq_nil in E as [_ E]. discriminate. }
    cbn [app] in *. exists u0, p, line, lost. subst l. split_and!; auto; [apply trim_space_spec| |].
    + unfold last_read. split_and!; auto. eauto.
    + (* the newline is in p, and p fits in the buffer *)
      assert (length p <= bufSize)%nat as LP.
      { destruct (decide (length p <= bufSize)%nat) as [|L]; [assumption|]. exfalso. pose proof bufSize_pos.
        assert (exists q, length u0 < q * bufSize <= length u0 + bufSize)%nat as (q & Hq).
        { exists (S (length u0 / bufSize)). pose proof (Nat.div_mod (length u0) bufSize ltac:(lia)).
          pose proof (Nat.mod_upper_bound (length u0) bufSize ltac:(lia)). nia. }
        apply (BB (q * bufSize - length u0)%nat q); lia. }
      apply elem_of_list_split in N3 as (p1 & p2 & ->).
      assert (line ++ x0a :: lost = (u0 ++ p1) ++ x0a :: p2) as EQ by (rewrite <- app_assoc; symmetry; exact E1).
      assert (length line <= length (u0 ++ p1) \/ length (u0 ++ p1) < length line)%nat as [D|D] by lia.
      * rewrite app_length in LP, D. cbn in LP. apply (f_equal length) in EQ. rewrite !app_length in EQ. cbn in EQ.
        destruct (decide (length line < length u0)%nat) as [D2|D2]; [|lia].
        exfalso. apply N2. apply elem_of_list_lookup. exists (length line).
        rewrite <- (lookup_app_l u0 (p1 ++ x0a :: p2)) by assumption. rewrite E1.
        rewrite lookup_app_r by lia. rewrite Nat.sub_diag. reflexivity.
      * exfalso. apply N1. apply elem_of_list_lookup. exists (length (u0 ++ p1)).
        rewrite <- (lookup_app_l line (x0a :: lost)) by assumption. rewrite EQ.
        rewrite lookup_app_r by lia. rewrite Nat.sub_diag. reflexivity.
  - injection H as <-. exact E.
Qed.

(** A line is returned exactly if one comes before the end of input. *)
Lemma feeds_prefix i u i' : feeds i u i' -> forall v j j', feeds i v j -> at_end j j' -> exists w, v = u ++ w.
Proof.
  induction 1 as [i|a b i u i' N N2 F IH|a i u i' N F IH]; intros v j j' G A.
  - exists v. reflexivity.
  - assert (forall c v, feeds (c :: i) v j -> c <> [] -> exists v', v = c ++ v' /\ feeds i v' j) as Q.
    { clear - A. intros c v G. remember (c :: i) as ci eqn:Ec. revert c Ec.
      induction G as [i0|a0 b0 i0 u0 i0' M M2 G IH|a0 i0 u0 i0' M G IH]; intros c Ec Nc; subst.
      - inversion A; congruence.
      - injection Ec as <- ->. destruct (IH A b0 eq_refl M2) as (v' & -> & G'). exists v'. rewrite <- app_assoc. auto.
      - injection Ec as -> ->. eauto. }
    destruct (Q (a ++ b) v G) as (v' & -> & G'); [destruct a; [congruence|discriminate]|].
    destruct (IH (b ++ v') j j') as [w Hw]; auto.
    { rewrite <- app_nil_r with (l := b) at 1. rewrite app_nil_r. constructor; auto. }
    exists w. rewrite <- !app_assoc. f_equal. exact Hw.
  - assert (exists v', v = a ++ v' /\ feeds i v' j) as (v' & -> & G').
    { remember (a :: i) as ci eqn:Ec. clear IH F. revert a N Ec.
      induction G as [i0|a0 b0 i0 u0 i0' M M2 G IH|a0 i0 u0 i0' M G IH]; intros c Nc Ec; subst.
      - inversion A; congruence.
      - injection Ec as <- ->. destruct (IH A b0 M2 eq_refl) as (v' & -> & G'). exists v'. rewrite <- app_assoc. auto.
      - injection Ec as -> ->. eauto. }
    destruct (IH v' j j' G' A) as [w ->]. exists w. apply app_assoc.
Qed.
Lemma read_line_some_iff i : (exists t i', read_line i = (Some t, i')) <-> exists u i', feeds i u i' /\ x0a ∈ u.
Proof.
  split.
  - intros (t & i' & E). apply read_line_spec in E as (u0 & p & line & lost & F & E & _). exists (u0 ++ p), i'. split; [exact F|].
    rewrite E. apply elem_of_app. right. left.
  - intros (u & i' & F & I). destruct (read_line i) as [[t|] j] eqn:E; [eauto|]. exfalso.
    apply read_line_spec in E as (v & j0 & G & A & N). destruct (feeds_prefix _ _ _ F _ _ _ G A) as [w ->].
    apply N. apply elem_of_app. auto.
Qed.
Lemma read_line_end_again i i' : at_end i i' -> read_line i = (None, i').
Proof.
  intros A. destruct (read_line i) as [[t|] j] eqn:E.
  - apply read_line_spec in E as (u0 & p & line & lost & F & E & _). exfalso.
    assert (u0 ++ p <> []) as N by (rewrite E; destruct line; discriminate).
    inversion A; subst; inversion F; subst; try congruence.
    + destruct a; [congruence|discriminate].
  - apply read_line_spec in E as (u & i0 & F & A0 & N). f_equal.
    inversion A; subst; inversion F; subst; try congruence.
    + inversion A0. reflexivity.
    + inversion A0. reflexivity.
    + destruct a; [congruence|discriminate].
Qed.

(** One chunk that holds a line: the rest of the chunk is gone. *)
Lemma read_line_chunk l rest i : x0a ∉ l -> (length (l ++ [x0a] ++ rest) <= bufSize)%nat ->
  read_line ((l ++ [x0a] ++ rest) :: i) = (Some (trim_space (l ++ [x0a])), i).
Proof.
  intros N L. unfold read_line, read_fuel. cbn [read_string cut has_prefix].
  replace (has_prefix [x0a] []) with false by reflexivity.
  pose proof bufSize_pos. rewrite decide_False by (cbn [length]; lia).
  cbn [os_read]. replace (bufSize - length [])%nat with bufSize by (cbn [length]; lia).
  rewrite take_ge by assumption. rewrite drop_ge by assumption. rewrite decide_True by reflexivity.
  destruct (l ++ [x0a] ++ rest) as [|b c] eqn:E; [destruct l; discriminate|]. rewrite <- E. cbn [app]. rewrite cut_nl_app by assumption. reflexivity.
Qed.
Lemma trim_nl l : trim_space (l ++ [x0a]) = trim_space l.
Proof.
  apply trim_space_iff. destruct (trim_space_spec l) as (a & b & E & A & B & N1 & N2). exists a, (b ++ [[x0a]]).
  split_and!; auto.
  - rewrite E at 1. rewrite concat_app. cbn. rewrite <- !app_assoc. reflexivity.
  - apply Forall_app. split; [assumption|]. apply Forall_cons. split; [|constructor]. left. exists x0a. split; [reflexivity|]. cbn. lia.
Qed.
Lemma read_line_typed l i : short_line l -> read_line (typed l :: i) = (Some (trim_space l), i).
Proof.
  intros [N L]. unfold typed. rewrite <- (app_nil_r [x0a]). rewrite read_line_chunk; auto.
  - rewrite trim_nl. reflexivity.
  - rewrite app_length, bufSize_val. cbn [length app]. lia.
Qed.
Lemma hears_typed ls i : Forall short_line ls -> hears (map typed ls ++ i) (map trim_space ls) i.
Proof.
  induction 1 as [|l ls S F IH]; cbn; [constructor|]. econstructor; [apply read_line_typed; assumption|exact IH].
Qed.
(** Whatever is read, at least one byte or an end of input is consumed. *)
Lemma read_line_shrinks i t i' : read_line i = (Some t, i') -> (pending i' < pending i)%nat.
Proof.
  intros E. apply read_line_spec in E as (u0 & p & line & lost & F & E & _). apply feeds_pending in F. rewrite F.
  rewrite E, app_length. cbn. lia.
Qed.

(** Lines typed at a terminal are seen one by one. *)
Lemma terminal_lines ls i : Forall short_line ls -> exists ts, Forall2 trimmed ls ts /\ hears (map typed ls ++ i) ts i.
Proof.
  intros F. exists (map trim_space ls). split; [|apply hears_typed; exact F].
  clear F. induction ls as [|l ls IH]; cbn; constructor; [apply trim_space_spec|exact IH].
Qed.
(** Lines that arrive together: the first is seen, the others are lost. *)
Lemma piped_lines l rest i : x0a ∉ l -> (length (l ++ [x0a] ++ rest) <= 4096)%nat ->
  exists t, trimmed l t /\ read_line ((l ++ [x0a] ++ rest) :: i) = (Some t, i).
Proof.
  intros N Ln. exists (trim_space l). split; [apply trim_space_spec|]. rewrite read_line_chunk by assumption. rewrite trim_nl. reflexivity.
Qed.
Lemma piped_script l ls : Forall short_line (l :: ls) -> (length (concat (map typed (l :: ls))) <= 4096)%nat ->
  exists t, trimmed l t /\ hears [concat (map typed (l :: ls))] [t] [] /\
    forall ts i', hears [concat (map typed (l :: ls))] ts i' -> ts = [] \/ ts = [t].
Proof.
  intros F Ln. inversion F as [|? ? [N _] F']; subst. cbn [map concat] in *. unfold typed at 1 in Ln. rewrite <- app_assoc in Ln.
  destruct (piped_lines l (concat (map typed ls)) [] N Ln) as (t & T & R). exists t. unfold typed at 1 3. rewrite <- app_assoc.
  split_and!; [exact T|econstructor; [exact R|constructor]|]. intros ts i' H. inversion H; subst; [auto|]. rewrite R in H0. injection H0 as <- <-.
  right. inversion H1; subst; [reflexivity|]. rewrite (read_line_end_again [] []) in H0 by constructor. discriminate.
Qed.

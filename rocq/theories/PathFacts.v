(** Facts about paths. *)
From Verif Require Export Path SpecPath BytesFacts.
Local Open Scope Z_scope.

Lemma comps_nil : comps [] = [[]].
Proof. reflexivity. Qed.
Lemma comps_slash r : comps (slash :: r) = [] :: comps r.
Proof. reflexivity. Qed.
Lemma comps_char c r : c <> slash -> comps (c :: r) = match comps r with e :: l => (c :: e) :: l | [] => [[c]] end.
Proof. intros N. cbn. destruct c; try reflexivity. contradiction. Qed.
Lemma comps_nonnil p : comps p <> [].
Proof. destruct p as [|c r]; [discriminate|]. destruct (decide (c = slash)) as [->|N]; [discriminate|]. rewrite comps_char by exact N. destruct (comps r); discriminate. Qed.
Lemma comps_app e r : slash ∉ e -> comps (e ++ slash :: r) = e :: comps r.
Proof.
  induction e as [|c e IH]; intros N; [reflexivity|]. apply not_elem_of_cons in N as [N1 N2]. cbn [app]. rewrite comps_char by congruence. rewrite IH by exact N2. reflexivity.
Qed.
Lemma comps_elem e : slash ∉ e -> comps e = [e].
Proof.
  induction e as [|c e IH]; intros N; [reflexivity|]. apply not_elem_of_cons in N as [N1 N2]. rewrite comps_char by congruence. rewrite IH by exact N2. reflexivity.
Qed.
Lemma comps_no_slash p : Forall (fun c => slash ∉ c) (comps p).
Proof.
  induction p as [|c r IH]; [repeat constructor; apply not_elem_of_nil|]. destruct (decide (c = slash)) as [->|N].
  - rewrite comps_slash. constructor; [apply not_elem_of_nil|exact IH].
  - rewrite comps_char by exact N. destruct (comps r) as [|e l]; [repeat constructor; apply not_elem_of_cons; split; [congruence|apply not_elem_of_nil]|].
    inversion_clear IH. constructor; [apply not_elem_of_cons; split; [congruence|assumption]|assumption].
Qed.
(** Components of a path put after another. *)
Lemma comps_under a b : comps (a ++ slash :: b) = comps a ++ comps b.
Proof.
  induction a as [|c a IH]; [reflexivity|]. destruct (decide (c = slash)) as [->|N]; cbn [app].
  - rewrite !comps_slash, IH. reflexivity.
  - rewrite !comps_char by exact N. rewrite IH. destruct (comps a) as [|e l] eqn:E; [apply comps_nonnil in E; contradiction|]. reflexivity.
Qed.

Lemma elem_span_spec p e r : elem_span p = (e, r) -> p = e ++ r /\ slash ∉ e /\ (r = [] \/ exists r', r = slash :: r').
Proof.
  revert e r. induction p as [|c p IH]; intros e r; cbn.
  - intros [= <- <-]. split; [reflexivity|]. split; [apply not_elem_of_nil|auto].
  - destruct (decide (c = slash)) as [->|N]. { intros [= <- <-]. split; [reflexivity|]. split; [apply not_elem_of_nil|eauto]. }
    destruct (elem_span p) as [e1 r1] eqn:E. intros [= <- <-]. destruct (IH _ _ eq_refl) as (-> & N1 & R). split; [reflexivity|]. split; [|exact R].
    apply not_elem_of_cons. split; [congruence|exact N1].
Qed.

Lemma slashed_cons c l : l <> [] -> slashed (c :: l) = c ++ slash :: slashed l.
Proof. destruct l; [contradiction|reflexivity]. Qed.
Lemma slashed_snoc l x : slashed (l ++ [x]) = match l with [] => x | _ => slashed l ++ slash :: x end.
Proof.
  induction l as [|a l IH]; [reflexivity|]. cbn [app]. rewrite slashed_cons by (destruct l; discriminate). rewrite IH.
  destruct l as [|b l]; [reflexivity|]. rewrite (slashed_cons a (b :: l)) by discriminate. rewrite <- app_assoc. reflexivity.
Qed.
Lemma slashed_nonnil l : l <> [] -> Forall (fun c => c <> []) l -> slashed l <> [].
Proof.
  intros N F. destruct l as [|a l]; [contradiction|]. inversion_clear F as [|? ? Ha _]. destruct l; [exact Ha|]. rewrite slashed_cons by discriminate. destruct a; discriminate.
Qed.
Definition outp (rooted : bool) (st : list bytes) : bytes := (if rooted then [slash] else []) ++ slashed (rev st).
Lemma outp_nil rooted st : Forall (fun c => c <> []) st -> length (outp rooted st) = (if rooted then 1 else 0)%nat <-> st = [].
Proof.
  intros F. unfold outp. rewrite app_length. split; [|intros ->; destruct rooted; reflexivity]. intros E. destruct st as [|x st]; [reflexivity|]. exfalso.
  assert (slashed (rev (x :: st)) <> []) as N. { apply slashed_nonnil; [cbn; destruct (rev st); discriminate|]. apply List.Forall_rev, F. }
  destruct (slashed (rev (x :: st))); [contradiction|]. destruct rooted; cbn in E; lia.
Qed.
Lemma outp_push rooted st e : Forall (fun c => c <> []) st ->
  outp rooted (e :: st) = (if (rooted && negb (bool_decide (length (outp rooted st) = 1%nat))) || (negb rooted && negb (bool_decide (length (outp rooted st) = 0%nat))) then outp rooted st ++ [slash] else outp rooted st) ++ e.
Proof.
  intros F. pose proof (outp_nil rooted st F) as X. destruct st as [|x st].
  - destruct rooted; cbn; reflexivity.
  - assert (length (outp rooted (x :: st)) <> (if rooted then 1 else 0)%nat) as N by (intros Y; apply X in Y; discriminate).
    destruct rooted; cbn [andb orb negb]; rewrite bool_decide_eq_false_2 by exact N; cbn [andb orb negb]; unfold outp; cbn [rev]; rewrite (slashed_snoc (rev st ++ [x])); destruct (rev st); cbn [app]; rewrite <- ?app_assoc; reflexivity.
Qed.
Lemma clean_back_to out dd d w : (dd <= d <= w)%nat -> (forall i, (d < i <= w)%nat -> nth i out x00 <> slash) -> (d = dd \/ nth d out x00 = slash) -> clean_back w dd out = d.
Proof.
  induction w as [|w IH]; intros L H D; [cbn; lia|]. cbn [clean_back]. destruct (decide (d = S w)) as [->|N].
  - rewrite decide_False; [reflexivity|]. intros [Q1 Q2]. destruct D; [lia|contradiction].
  - rewrite decide_True by (split; [lia|apply H; lia]). apply IH; [lia| |exact D]. intros i Hi. apply H. lia.
Qed.
Lemma clean_back_pop rooted st e dd : Forall (fun c => c <> []) st -> slash ∉ e -> e <> [] -> (dd <= length (outp rooted st))%nat -> (st = [] -> dd = length (outp rooted st)) ->
  take (clean_back (length (outp rooted (e :: st)) - 1) dd (outp rooted (e :: st))) (outp rooted (e :: st)) = outp rooted st.
Proof.
  intros F N Ne Ld D0. assert (exists u, outp rooted (e :: st) = outp rooted st ++ u ++ e /\ (st = [] /\ u = [] \/ u = [slash])) as (u & E & Hu).
  { rewrite outp_push by exact F. destruct st as [|x st]. { exists []. destruct rooted; cbn; auto. }
    pose proof (outp_nil rooted (x :: st) F) as X. assert (length (outp rooted (x :: st)) <> (if rooted then 1 else 0)%nat) as Nx by (intros Y; apply X in Y; discriminate).
    exists [slash]. split; [|auto]. destruct rooted; cbn [andb orb negb]; rewrite bool_decide_eq_false_2 by exact Nx; cbn [andb orb negb]; rewrite <- app_assoc; reflexivity. }
  rewrite E. set (o := outp rooted st) in *. assert (length e <> 0)%nat as Le by (destruct e; [contradiction|discriminate]).
  rewrite (clean_back_to _ _ (length o)).
  - apply take_app.
  - rewrite !app_length. lia.
  - intros i Hi. rewrite !app_length in Hi. rewrite app_nth2 by lia. intros H. destruct Hu as [[-> ->]| ->]; cbn [app length] in *.
    + apply N. apply elem_of_list_In. rewrite <- H. apply nth_In. lia.
    + destruct (i - length o)%nat as [|j] eqn:Ej; [lia|]. cbn in H. apply N. apply elem_of_list_In. rewrite <- H. apply nth_In. lia.
  - destruct Hu as [[-> ->]| ->]; [left; symmetry; auto|]. right. rewrite app_nth2 by lia. rewrite Nat.sub_diag. reflexivity.
Qed.

Lemma norm_step_skip rooted st c : c = [] \/ c = bs "." -> norm_step rooted st c = st.
Proof. intros H. unfold norm_step. rewrite decide_True by exact H. reflexivity. Qed.
Lemma fold_span rooted e r st : slash ∉ e -> r = [] \/ (exists r', r = slash :: r') ->
  fold_left (norm_step rooted) (comps (e ++ r)) st = fold_left (norm_step rooted) (comps r) (norm_step rooted st e).
Proof.
  intros N [->|[r' ->]].
  - rewrite app_nil_r, comps_elem by exact N. cbn [fold_left]. rewrite comps_nil. cbn [fold_left]. rewrite (norm_step_skip _ _ []) by auto. reflexivity.
  - rewrite comps_app by exact N. cbn [fold_left]. rewrite comps_slash. cbn [fold_left]. rewrite (norm_step_skip _ _ []) by auto. reflexivity.
Qed.
Lemma elem_end_iff r : elem_end r = true -> r = [] \/ exists r', r = slash :: r'.
Proof. destruct r as [|c r]; [auto|]. cbn. intros H. apply bool_decide_eq_true in H as ->. eauto. Qed.
Lemma elem_end_not c r : elem_end r = false -> exists e r', elem_span r = (e, r') /\ e <> [] /\ elem_span (c :: r) = if decide (c = slash) then ([], c :: r) else (c :: e, r').
Proof. destruct r as [|d r]; [discriminate|]. cbn. intros H. apply bool_decide_eq_false in H. rewrite (decide_False (P:=d = slash)) by exact H. destruct (elem_span r) as [e r']. exists (d :: e), r'. split; [reflexivity|]. split; [discriminate|reflexivity]. Qed.

(** The state of the loop: [k] times "..", then names. *)
Definition stacked (rooted : bool) (st : list bytes) (dd : nat) : Prop :=
  exists ns k, st = ns ++ repeat (bs "..") k /\ Forall fname ns /\ (rooted = true -> k = O) /\ dd = length (outp rooted (repeat (bs "..") k)).
Lemma stacked_nonnil rooted st dd : stacked rooted st dd -> Forall (fun c => c <> []) st.
Proof.
  intros (ns & k & -> & F & _). apply Forall_app. split; [eapply Forall_impl; [exact F|intros c Hc; apply Hc]|]. induction k; constructor; [discriminate|assumption].
Qed.
Lemma outp_le rooted a b : (length (outp rooted b) <= length (outp rooted (a ++ b)))%nat.
Proof.
  induction a as [|x a IH]; [reflexivity|]. etransitivity; [exact IH|]. unfold outp. cbn [app rev]. rewrite slashed_snoc. rewrite !app_length. destruct (rev (a ++ b)) as [|y l] eqn:E; [cbn; lia|]. rewrite app_length. lia.
Qed.
Lemma repeat_snoc {A} (x : A) k : x :: repeat x k = repeat x k ++ [x].
Proof. induction k as [|k IH]; [reflexivity|]. cbn. f_equal. exact IH. Qed.
Lemma clean_loop_spec f rooted : forall rest st dd, (length rest <= f)%nat -> stacked rooted st dd ->
  clean_loop f rooted rest (outp rooted st) dd = outp rooted (fold_left (norm_step rooted) (comps rest) st).
Proof.
  induction f as [|f IH]; intros rest st dd Lf S.
  { destruct rest; [|cbn in Lf; lia]. cbn [clean_loop]. rewrite comps_nil. cbn [fold_left]. rewrite norm_step_skip by auto. reflexivity. }
  destruct rest as [|c r]. { cbn [clean_loop]. rewrite comps_nil. cbn [fold_left]. rewrite norm_step_skip by auto. reflexivity. }
  cbn [length] in Lf. pose proof (stacked_nonnil _ _ _ S) as Ne. cbn [clean_loop]. destruct (decide (c = slash)) as [->|Nc].
  { rewrite comps_slash. cbn [fold_left]. rewrite (norm_step_skip _ _ []) by auto. apply IH; [lia|exact S]. }
  destruct (bool_decide (c = dot) && elem_end r) eqn:E1.
  { apply andb_true_iff in E1 as [H1 H2]. apply bool_decide_eq_true in H1 as ->. apply elem_end_iff in H2. rewrite (IH r st dd ltac:(lia) S).
    change (dot :: r) with ([dot] ++ r). rewrite (fold_span rooted [dot]); [|intros H; apply elem_of_list_singleton in H; discriminate|exact H2].
    rewrite (norm_step_skip _ _ [dot]) by auto. reflexivity. }
  destruct (bool_decide (c = dot) && bool_decide (head r = Some dot) && elem_end (drop 1 r)) eqn:E2.
  { apply andb_true_iff in E2 as [H1 H3]. apply andb_true_iff in H1 as [H1 H2]. apply bool_decide_eq_true in H1 as ->. apply bool_decide_eq_true in H2. apply elem_end_iff in H3.
    destruct r as [|d r]; [discriminate|]. injection H2 as ->. cbn [drop] in *. rewrite ?drop_0 in *. cbn [length] in Lf.
    change (dot :: dot :: r) with ([dot; dot] ++ r). rewrite (fold_span rooted [dot; dot]); [|intros H; apply elem_of_list_In in H; cbn in H; intuition discriminate|exact H3].
    destruct S as (ns & k & -> & Fn & Rk & ->). destruct (decide _) as [Lt|Ge].
    - destruct ns as [|e ns]. { cbn [app] in Lt. lia. } inversion Fn as [|? ? Hn Fn']; subst. cbn [app] in *.
      rewrite clean_back_pop.
      + rewrite (IH r (ns ++ repeat (bs "..") k) (length (outp rooted (repeat (bs "..") k)))); [|lia|exists ns, k; auto].
        f_equal. f_equal. unfold norm_step. rewrite decide_False by (intros [?|?]; discriminate). rewrite decide_True by reflexivity. rewrite decide_False by (destruct Hn as (_ & _ & Hn & _); exact Hn). reflexivity.
      + inversion Ne; assumption.
      + apply Hn.
      + apply Hn.
      + apply outp_le.
      + intros En. apply app_eq_nil in En as [-> En]. rewrite En. reflexivity.
    - assert (ns = []) as ->.
      { destruct ns as [|e ns]; [reflexivity|]. exfalso. apply Ge. cbn [app]. inversion Fn as [|? ? Hn Fn']; subst. cbn [app] in Ne. inversion Ne as [|? ? He Ne']; subst.
        rewrite outp_push by exact Ne'. pose proof (outp_le rooted ns (repeat (bs "..") k)). rewrite app_length. assert (length e <> 0)%nat by (destruct e; [contradiction|discriminate]). destruct (_ || _); rewrite ?app_length; lia. }
      cbn [app] in *. destruct rooted.
      + rewrite Rk in * by reflexivity. cbn [repeat] in *. rewrite (IH r [] (length (outp true [])) ltac:(lia)) by (exists [], O; auto). reflexivity.
      + assert (norm_step false (repeat (bs "..") k) [dot; dot] = repeat (bs "..") (S k)) as ->. { unfold norm_step. rewrite decide_False by (intros [?|?]; discriminate). rewrite decide_True by reflexivity. destruct k; [reflexivity|]. cbn [repeat]. rewrite decide_True by reflexivity. reflexivity. }
        assert ((if decide (0 < length (outp false (repeat (bs "..") k)))%nat then outp false (repeat (bs "..") k) ++ [slash] else outp false (repeat (bs "..") k)) ++ [dot; dot] = outp false (repeat (bs "..") (S k))) as ->.
        { cbn [repeat]. rewrite (outp_push false _ (bs "..")) by exact Ne. cbn [andb orb negb]. f_equal. destruct (decide _); [rewrite bool_decide_eq_false_2 by lia|rewrite bool_decide_eq_true_2 by lia]; reflexivity. }
        apply IH; [lia|]. exists [], (S k). split; [reflexivity|]. split; [constructor|]. split; [discriminate|reflexivity]. }
  destruct (elem_span (c :: r)) as [e r'] eqn:Es. destruct (elem_span_spec _ _ _ Es) as (E3 & N3 & R3). cbn [elem_span] in Es. rewrite decide_False in Es by exact Nc. destruct (elem_span r) as [e1 r1] eqn:Es1. injection Es as <- <-.
  rewrite E3, fold_span by assumption. rewrite <- outp_push by exact Ne. injection E3 as ->. destruct (elem_span_spec _ _ _ Es1) as (_ & N1 & _).
  assert (fname (c :: e1)) as Fe.
  { split; [discriminate|]. split; [|split; [|exact N3]].
    - intros [= -> ->]. rewrite bool_decide_eq_true_2 in E1 by reflexivity. cbn [andb app] in E1. destruct R3 as [->|[? ->]]; discriminate.
    - intros [= -> ->]. rewrite bool_decide_eq_true_2 in E2 by reflexivity. cbn [andb app head drop] in E2. rewrite bool_decide_eq_true_2 in E2 by reflexivity. cbn in E2. destruct R3 as [->|[? ->]]; discriminate. }
  assert (norm_step rooted st (c :: e1) = (c :: e1) :: st) as ->. { unfold norm_step. destruct Fe as (_ & F1 & F2 & _). rewrite decide_False by (intros [?|?]; [discriminate|contradiction]). rewrite decide_False by exact F2. reflexivity. }
  apply IH. { rewrite app_length in Lf. lia. } destruct S as (ns & k & -> & Fn & Rk & ->). exists ((c :: e1) :: ns), k. split; [reflexivity|]. split; [constructor; assumption|]. auto.
Qed.
Lemma clean_exact p : clean p = as_path (is_rooted p) (norm (is_rooted p) (comps p)).
Proof.
  unfold clean. destruct (decide (p = [])) as [->|N]; [reflexivity|]. unfold norm. destruct (is_rooted p) eqn:R.
  - apply bool_decide_eq_true in R. destruct p as [|c p]; [discriminate|]. injection R as ->. cbn [drop]. change [slash] with (outp true []).
    rewrite (clean_loop_spec _ true p [] 1); [|cbn; lia|exists [], O; cbn; auto]. rewrite comps_slash. cbn [fold_left]. reflexivity.
  - change (clean_loop (length p) false p [] 0) with (clean_loop (length p) false p (outp false []) 0). rewrite (clean_loop_spec _ false p [] 0); [|lia|exists [], O; cbn; split; [reflexivity|split; [constructor|split; [discriminate|reflexivity]]]].
    unfold outp. cbn [app]. set (l := fold_left _ _ _). assert (Forall (fun c => c <> []) l) as F.
    { unfold l. assert (forall cs st, Forall (fun c : bytes => c <> []) st -> Forall (fun c : bytes => c <> []) (fold_left (norm_step false) cs st)) as X; [|apply X; constructor].
      induction cs as [|c cs IH]; intros st Fs; [exact Fs|]. cbn [fold_left]. apply IH. unfold norm_step. destruct (decide _) as [|N1]; [exact Fs|]. destruct (decide _) as [->|].
      - destruct st as [|x st']; [repeat constructor; discriminate|]. destruct (decide _); [constructor; [discriminate|exact Fs]|inversion Fs; assumption].
      - constructor; [intros ->; apply N1; auto|exact Fs]. }
    destruct (rev l) as [|x l'] eqn:El; [reflexivity|]. rewrite decide_False; [reflexivity|]. rewrite <- El. apply slashed_nonnil; [rewrite El; discriminate|apply List.Forall_rev, F].
Qed.

(** *** Simplified components *)
Definition simple (c : bytes) : Prop := c <> [] /\ c <> bs "." /\ slash ∉ c.
Lemma norm_steps_simple rooted cs : forall st, Forall simple st -> Forall (fun c => slash ∉ c) cs -> Forall simple (fold_left (norm_step rooted) cs st).
Proof.
  induction cs as [|c cs IH]; intros st Fs Fc; [exact Fs|]. inversion Fc as [|? ? Hc Fc']; subst. cbn [fold_left]. apply IH; [|exact Fc']. unfold norm_step.
  destruct (decide _) as [|N]; [exact Fs|]. assert (simple c) as Sc by (split; [|split]; [intros ->; apply N; auto|intros ->; apply N; auto|exact Hc]).
  destruct (decide _); [|constructor; assumption]. destruct st as [|x r]; [destruct rooted; [exact Fs|constructor; [exact Sc|exact Fs]]|]. destruct (decide _); [constructor; assumption|inversion Fs; assumption].
Qed.
Lemma norm_simple rooted p : Forall simple (norm rooted (comps p)).
Proof. unfold norm. apply List.Forall_rev. apply norm_steps_simple; [constructor|apply comps_no_slash]. Qed.
Lemma fname_simple c : fname c -> simple c.
Proof. intros (A & B & _ & D). split; [|split]; assumption. Qed.
Lemma comps_slashed l : l <> [] -> Forall simple l -> comps (slashed l) = l.
Proof.
  induction l as [|c l IH]; intros N F; [contradiction|]. inversion F as [|? ? (_ & _ & Hc) F']; subst. destruct l as [|d l]; [apply comps_elem, Hc|].
  rewrite slashed_cons by discriminate. rewrite comps_app by exact Hc. rewrite IH by (discriminate || assumption). reflexivity.
Qed.
(** The components of a path made of components, up to those that mean nothing. *)
Lemma comps_as_path rooted l : Forall simple l -> exists a b, comps (as_path rooted l) = a ++ l ++ b /\ Forall (fun c => c = [] \/ c = bs ".") a /\ Forall (fun c => c = [] \/ c = bs ".") b /\ (l <> [] -> b = []).
Proof.
  intros F. destruct l as [|c l].
  - destruct rooted; [exists [[]], [[]]|exists [], [bs "."]]; cbn; repeat split; repeat constructor; auto; contradiction.
  - destruct rooted; cbn [as_path].
    + exists [[]], []. change (x2f :: slashed (c :: l)) with (slash :: slashed (c :: l)). rewrite comps_slash, comps_slashed by (discriminate || assumption). rewrite app_nil_r. repeat split; repeat constructor; auto.
    + exists [], []. rewrite comps_slashed by (discriminate || assumption). rewrite app_nil_r. repeat split; constructor.
Qed.
Lemma rooted_as_path rooted l : Forall simple l -> is_rooted (as_path rooted l) = rooted.
Proof.
  intros F. unfold is_rooted. destruct rooted; [apply bool_decide_eq_true_2; destruct l; reflexivity|]. apply bool_decide_eq_false_2. destruct l as [|c l]; [discriminate|]. inversion F as [|? ? (N & _ & S) F']; subst.
  cbn [as_path]. destruct c as [|x c]; [contradiction|]. intros H. apply S. destruct l; [|rewrite slashed_cons in H by discriminate]; injection H as ->; left.
Qed.
Lemma as_path_nonnil rooted l : Forall simple l -> as_path rooted l <> [].
Proof. intros F. destruct rooted; [destruct l; discriminate|]. destruct l as [|c l]; [discriminate|]. cbn [as_path]. apply slashed_nonnil; [discriminate|]. eapply Forall_impl; [exact F|intros x Hx; apply Hx]. Qed.
Lemma rooted_clean p : is_rooted (clean p) = is_rooted p.
Proof. rewrite clean_exact. apply rooted_as_path, norm_simple. Qed.
Lemma clean_nonnil p : clean p <> [].
Proof. rewrite clean_exact. apply as_path_nonnil, norm_simple. Qed.

(** *** Walking *)
Lemma go_skip l c : c = [] \/ c = bs "." -> go_step l c = l.
Proof. intros H. unfold go_step. rewrite decide_True by exact H. reflexivity. Qed.
Lemma go_name l c : c <> [] -> c <> bs "." -> c <> bs ".." -> go_step l c = l ++ [c].
Proof. intros A B D. unfold go_step. rewrite decide_False by tauto. rewrite decide_False by exact D. reflexivity. Qed.
Lemma go_up l : go_step l (bs "..") = removelast l.
Proof. reflexivity. Qed.
Lemma go_app l a b : go_to l (a ++ b) = go_to (go_to l a) b.
Proof. apply fold_left_app. Qed.
Lemma go_skips l a : Forall (fun c => c = [] \/ c = bs ".") a -> go_to l a = l.
Proof. revert l. induction a as [|c a IH]; intros l F; [reflexivity|]. inversion F; subst. unfold go_to. cbn [fold_left]. rewrite go_skip by assumption. apply IH. assumption. Qed.
Lemma go_names l ns : Forall fname ns -> go_to l ns = l ++ ns.
Proof.
  revert l. induction ns as [|c ns IH]; intros l F; [symmetry; apply app_nil_r|]. inversion F as [|? ? (A & B & D & _) F']; subst. change (go_to (go_step l c) ns = l ++ c :: ns). rewrite go_name by assumption.
  rewrite IH by exact F'. rewrite <- app_assoc. reflexivity.
Qed.
Lemma norm_step_go rooted st c at_ : (rooted = true -> at_ = []) -> Forall simple st -> Forall (fun c => rooted = true -> c <> bs "..") st ->
  go_to at_ (rev (norm_step rooted st c)) = go_step (go_to at_ (rev st)) c.
Proof.
  intros R F N2. unfold norm_step. destruct (decide _) as [S|N]; [rewrite go_skip by exact S; reflexivity|]. destruct (decide _) as [->|N3].
  - destruct st as [|x r]; [destruct rooted; [rewrite R by reflexivity; reflexivity|reflexivity]|]. inversion F as [|? ? (X1 & X2 & X3) F']; subst.
    destruct (decide _) as [->|N4]. { cbn [rev]. rewrite !go_app. reflexivity. }
    cbn [rev]. rewrite go_app. rewrite go_up. change (go_to (go_to at_ (rev r)) [x]) with (go_step (go_to at_ (rev r)) x). rewrite go_name by assumption. rewrite removelast_last. reflexivity.
  - cbn [rev]. rewrite go_app. reflexivity.
Qed.
Lemma norm_steps_rooted cs : forall st, Forall (fun c => true = true -> c <> bs "..") st -> Forall (fun c => true = true -> c <> bs "..") (fold_left (norm_step true) cs st).
Proof.
  induction cs as [|c cs IH]; intros st F; [exact F|]. cbn [fold_left]. apply IH. unfold norm_step. destruct (decide _); [exact F|]. destruct (decide _) as [|N].
  - destruct st as [|x r]; [constructor|]. inversion F as [|? ? Hx Fr]; subst. destruct (decide _) as [->|]; [|exact Fr]. exfalso. apply Hx; reflexivity.
  - constructor; [intros _; exact N|exact F].
Qed.
(** Simplifying a path does not change where it leads. *)
Lemma norm_go rooted cs at_ : (rooted = true -> at_ = []) -> Forall (fun c => slash ∉ c) cs -> go_to at_ (norm rooted cs) = go_to at_ cs.
Proof.
  intros R F. unfold norm. assert (forall st, Forall simple st -> Forall (fun c => rooted = true -> c <> bs "..") st -> go_to at_ (rev (fold_left (norm_step rooted) cs st)) = go_to (go_to at_ (rev st)) cs) as X; [|apply (X []); constructor].
  induction cs as [|c cs IH]; intros st Fs Ns; [reflexivity|]. inversion F as [|? ? Hc F']; subst. cbn [fold_left]. rewrite IH; [|exact F'| |].
  - rewrite norm_step_go by assumption. reflexivity.
  - change (norm_step rooted st c) with (fold_left (norm_step rooted) [c] st). apply norm_steps_simple; [exact Fs|repeat constructor; exact Hc].
  - destruct rooted; [|eapply Forall_impl; [|intros x _ H; discriminate H]; apply Forall_true; intros; exact I]. change (norm_step true st c) with (fold_left (norm_step true) [c] st). apply norm_steps_rooted. exact Ns.
Qed.
Lemma go_as_path rooted l at_ : Forall simple l -> go_to at_ (comps (as_path rooted l)) = go_to at_ l.
Proof. intros F. destruct (comps_as_path rooted l F) as (a & b & -> & Fa & Fb & _). rewrite !go_app. rewrite (go_skips _ a) by exact Fa. apply go_skips, Fb. Qed.
Lemma go_clean p at_ : (is_rooted p = true -> at_ = []) -> go_to at_ (comps (clean p)) = go_to at_ (comps p).
Proof. intros R. rewrite clean_exact, go_as_path by apply norm_simple. apply norm_go; [exact R|apply comps_no_slash]. Qed.
Lemma rooted_app a b : a <> [] -> is_rooted (a ++ b) = is_rooted a.
Proof. destruct a; [contradiction|reflexivity]. Qed.
Lemma fjoin_exact a b : a <> [] -> fjoin a b = as_path (is_rooted a) (norm (is_rooted a) (comps a ++ comps b)).
Proof.
  intros N. unfold fjoin. rewrite decide_False by exact N. rewrite clean_exact. rewrite rooted_app by exact N. cbn [app]. rewrite comps_under. reflexivity.
Qed.
Lemma rooted_fjoin a b : a <> [] -> is_rooted (fjoin a b) = is_rooted a.
Proof. intros N. unfold fjoin. rewrite decide_False by exact N. rewrite rooted_clean. apply rooted_app, N. Qed.
Lemma fjoin_nonnil a b : a <> [] -> fjoin a b <> [].
Proof. intros N. unfold fjoin. rewrite decide_False by exact N. apply clean_nonnil. Qed.
Lemma go_fjoin a b at_ : a <> [] -> (is_rooted a = true -> at_ = []) -> go_to at_ (comps (fjoin a b)) = go_to (go_to at_ (comps a)) (comps b).
Proof.
  intros N R. unfold fjoin. rewrite decide_False by exact N. rewrite go_clean by (rewrite rooted_app by exact N; exact R). cbn [app]. rewrite comps_under. apply go_app.
Qed.

(** Simple components are simple already. *)
Definition ups_names (rooted : bool) (l : list bytes) : Prop := exists k ns, l = repeat (bs "..") k ++ ns /\ Forall fname ns /\ (rooted = true -> k = O).
Lemma norm_steps_shape rooted cs : forall st, ups_names rooted (rev st) -> Forall (fun c => slash ∉ c) cs -> ups_names rooted (rev (fold_left (norm_step rooted) cs st)).
Proof.
  induction cs as [|c cs IH]; intros st U F; [exact U|]. inversion F as [|? ? Hc F']; subst. cbn [fold_left]. apply IH; [|exact F']. clear IH. destruct U as (k & ns & E & Fn & R). unfold norm_step.
  destruct (decide _) as [|N]; [exists k, ns; auto|]. destruct (decide _) as [->|N2].
  - destruct st as [|x r]. { destruct rooted; [exists k, ns; auto|]. exists 1%nat, []. repeat split; [constructor|discriminate]. }
    cbn [rev] in E. destruct (decide _) as [->|N3].
    + assert (ns = []) as ->. { destruct ns as [|y ns _] using rev_ind; [reflexivity|]. rewrite app_assoc in E. apply app_inj_tail in E as [_ <-]. apply Forall_app in Fn as [_ Fn]. inversion Fn as [|? ? (_ & _ & B & _) _]; subst. contradiction. }
      rewrite app_nil_r in E. exists (S k), []. cbn [rev]. rewrite E. rewrite app_nil_r. cbn [repeat]. rewrite repeat_snoc. split; [reflexivity|]. split; [constructor|]. intros Hr. rewrite (R Hr) in E. destruct (rev r); discriminate.
    + destruct ns as [|y ns _] using rev_ind.
      { rewrite app_nil_r in E. destruct k as [|k]; [destruct (rev r); discriminate|]. cbn [repeat] in E. rewrite repeat_snoc in E. apply app_inj_tail in E as [_ ->]. contradiction. }
      rewrite app_assoc in E. apply app_inj_tail in E as [E _]. exists k, ns. apply Forall_app in Fn as [Fn _]. auto.
  - exists k, (ns ++ [c]). cbn [rev]. rewrite E, <- app_assoc. split; [reflexivity|]. split; [|exact R]. apply Forall_app. split; [exact Fn|]. repeat constructor; [intros ->; apply N; auto|intros ->; apply N; auto|exact N2|exact Hc].
Qed.
Lemma norm_shape rooted p : ups_names rooted (norm rooted (comps p)).
Proof. apply norm_steps_shape; [exists O, []; repeat constructor|apply comps_no_slash]. Qed.
Lemma norm_names rooted st ns : Forall fname ns -> fold_left (norm_step rooted) ns st = rev ns ++ st.
Proof.
  revert st. induction ns as [|c ns IH]; intros st F; [reflexivity|]. inversion F as [|? ? (A & B & D & _) F']; subst. cbn [fold_left rev]. unfold norm_step at 2. rewrite decide_False by tauto. rewrite decide_False by exact D.
  rewrite IH by exact F'. rewrite <- app_assoc. reflexivity.
Qed.
Lemma norm_idem_names rooted l : ups_names rooted l -> norm rooted l = l.
Proof.
  intros (k & ns & -> & F & R). unfold norm. rewrite fold_left_app, norm_names by exact F. assert (fold_left (norm_step rooted) (repeat (bs "..") k) [] = repeat (bs "..") k) as ->.
  { destruct rooted; [rewrite R by reflexivity; reflexivity|]. assert (forall j, fold_left (norm_step false) (repeat (bs "..") k) (repeat (bs "..") j) = repeat (bs "..") (k + j)) as X; [|etransitivity; [exact (X O)|]; rewrite Nat.add_0_r; reflexivity].
    clear. induction k as [|k IH]; intros j; [reflexivity|]. cbn [repeat fold_left]. assert (norm_step false (repeat (bs "..") j) (bs "..") = repeat (bs "..") (S j)) as ->.
    { unfold norm_step. rewrite decide_False by (intros [?|?]; discriminate). rewrite decide_True by reflexivity. destruct j; reflexivity. }
    rewrite IH. f_equal. lia. }
  rewrite rev_app_distr, rev_involutive. f_equal. clear. induction k as [|k IH]; [reflexivity|]. cbn [repeat rev]. rewrite IH. rewrite <- repeat_snoc. reflexivity.
Qed.
Lemma ups_names_simple rooted l : ups_names rooted l -> Forall simple l.
Proof.
  intros (k & ns & -> & F & _). apply Forall_app. split; [|eapply Forall_impl; [exact F|apply fname_simple]]. induction k; constructor; [|assumption]. split; [discriminate|]. split; [discriminate|].
  intros H. apply elem_of_list_In in H. cbn in H. intuition discriminate.
Qed.
Lemma norm_skips rooted a b st : Forall (fun c => c = [] \/ c = bs ".") a -> fold_left (norm_step rooted) (a ++ b) st = fold_left (norm_step rooted) b st.
Proof. induction a as [|c a IH]; intros F; [reflexivity|]. inversion F; subst. cbn [app fold_left]. rewrite norm_step_skip by assumption. apply IH. assumption. Qed.
Lemma norm_comps_as_path rooted l : ups_names rooted l -> norm rooted (comps (as_path rooted l)) = l.
Proof.
  intros U. destruct (comps_as_path rooted l (ups_names_simple _ _ U)) as (a & b & -> & Fa & Fb & _). unfold norm. rewrite norm_skips by exact Fa. rewrite fold_left_app.
  rewrite <- (app_nil_r b). rewrite norm_skips by exact Fb. cbn [fold_left]. apply (norm_idem_names rooted l U).
Qed.
Lemma clean_as_path rooted l : ups_names rooted l -> clean (as_path rooted l) = as_path rooted l.
Proof. intros U. rewrite clean_exact, rooted_as_path by (eapply ups_names_simple, U). rewrite norm_comps_as_path by exact U. reflexivity. Qed.
Lemma clean_idem p : clean (clean p) = clean p.
Proof. rewrite (clean_exact p). apply clean_as_path, norm_shape. Qed.
(** A name put after a path. *)
Lemma norm_snoc rooted cs c : fname c -> norm rooted (cs ++ [c]) = norm rooted cs ++ [c].
Proof. intros F. unfold norm. rewrite fold_left_app, norm_names by (repeat constructor; apply F). cbn [rev app]. reflexivity. Qed.

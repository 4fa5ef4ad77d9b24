(** Facts about the routes of the key server. *)
From Verif Require Export SpecRoutes PathFacts.
Local Open Scope Z_scope.

Lemma go_fnames p : Forall fname (go_to [] (comps p)) /\ norm true (comps p) = go_to [] (comps p).
Proof.
  destruct (norm_shape true p) as (k & ns & E & F & R). rewrite R in E by reflexivity. cbn [repeat app] in E.
  rewrite <- (norm_go true (comps p) []) by (auto using comps_no_slash). rewrite E, go_names by exact F. auto.
Qed.
Lemma comps_rooted p : go_to [] (comps (slash :: p)) = go_to [] (comps p).
Proof. rewrite comps_slash. reflexivity. Qed.
Lemma clean_url_rooted p : is_rooted p = true -> clean_url p = tidy p.
Proof.
  intros R. unfold clean_url, tidy. destruct p as [|c p]; [discriminate|]. rewrite decide_False by discriminate. rewrite R. cbv zeta.
  rewrite clean_exact, R. destruct (go_fnames (c :: p)) as [F ->]. revert F. generalize (go_to [] (comps (c :: p))). intros n F.
  destruct n as [|e n]; cbn [as_path].
  - rewrite decide_False by (intros [_ H]; apply H; reflexivity). reflexivity.
  - change slash with x2f. destruct (decide (list.last (c :: p) = Some x2f)) as [L|L].
    + rewrite decide_True; [reflexivity|]. split; [exact L|]. intros H. apply (f_equal (drop 1)) in H. revert H. change (slashed (e :: n) <> []). apply slashed_nonnil; [discriminate|].
      eapply Forall_impl; [exact F|intros x Hx; apply Hx].
    + rewrite decide_False by tauto. rewrite app_nil_r. reflexivity.
Qed.
Lemma clean_url_is p : clean_url p = tidy p.
Proof.
  destruct (is_rooted p) eqn:R; [apply clean_url_rooted, R|]. destruct p as [|c p]; [reflexivity|].
  transitivity (clean_url (slash :: c :: p)).
  - unfold clean_url. rewrite !decide_False by discriminate. rewrite R. change (is_rooted (slash :: c :: p)) with true. reflexivity.
  - rewrite clean_url_rooted by reflexivity. unfold tidy. rewrite comps_rooted. reflexivity.
Qed.
Lemma last_tidy n b : list.last (x2f :: slashed n ++ (if b : bool then [x2f] else [])) = Some x2f -> Forall fname n -> n <> [] -> b = true.
Proof.
  intros H F N. destruct b; [reflexivity|]. rewrite app_nil_r in H. exfalso. destruct (exists_last N) as (m & e & ->).
  apply Forall_app in F as [_ F]. inversion F as [|? ? (A & _ & _ & S) _]; subst. destruct (exists_last A) as (e' & c & ->).
  rewrite slashed_snoc in H. assert (exists u, x2f :: match m with [] => e' ++ [c] | _ => slashed m ++ slash :: e' ++ [c] end = u ++ [c]) as [u Eu].
  { destruct m as [|x m]; [exists (x2f :: e'); reflexivity|]. exists (x2f :: slashed (x :: m) ++ slash :: e'). cbn [app]. rewrite <- app_assoc. reflexivity. }
  rewrite Eu, last_snoc in H. injection H as ->. apply S. apply elem_of_app. right. left.
Qed.
Lemma tidy_twice p : tidy (tidy p) = tidy p.
Proof.
  unfold tidy at 2 3. destruct (go_fnames p) as [F _]. destruct (go_to [] (comps p)) as [|e n]; [reflexivity|].
  remember (e :: n) as m eqn:Em. assert (m <> []) as N by (subst; discriminate).
  assert (go_to [] (comps (x2f :: slashed m ++ (if decide (list.last p = Some x2f) then [x2f] else []))) = m) as G.
  { change x2f with slash. rewrite comps_rooted. assert (comps (slashed m) = m) as Cm by (apply comps_slashed; [exact N|eapply Forall_impl; [exact F|apply fname_simple]]).
    destruct (decide _); [rewrite comps_under, Cm, go_app, (go_names [] m) by exact F; reflexivity|]. rewrite app_nil_r, Cm. apply go_names, F. }
  unfold tidy. rewrite G. subst m. set (m := e :: n) in *. f_equal. f_equal.
  destruct (decide (list.last p = Some x2f)) as [L|L].
  - rewrite decide_True; [reflexivity|]. rewrite app_comm_cons. apply last_snoc.
  - rewrite decide_False; [reflexivity|]. intros H. pose proof (last_tidy m false H F N). discriminate.
Qed.

Lemma variable_is prefix p l : variable prefix p = Some l <-> p = prefix ++ l /\ l <> [] /\ slash ∉ l.
Proof.
  unfold variable. split.
  - destruct (decide _) as [T|T]; [|discriminate]. cbv zeta. destruct (decide _) as [[A B]|]; [|discriminate]. intros [= <-].
    split; [rewrite <- T at 1; symmetry; apply take_drop|auto].
  - intros (-> & A & B). rewrite decide_True by apply take_app. cbv zeta. rewrite drop_app, decide_True by auto. reflexivity.
Qed.
(** A page below one of the three names is found as it is exactly when the label names
    something. *)
Lemma tidy_label w l : fname w -> l <> [] -> slash ∉ l -> tidy (x2f :: w ++ x2f :: l) = x2f :: w ++ x2f :: l <-> fname l.
Proof.
  intros W A S.
  assert (go_to [] (comps (x2f :: w ++ x2f :: l)) = go_step [w] l) as G.
  { change x2f with slash. rewrite comps_rooted. destruct W as (W1 & W2 & W3 & W4). rewrite comps_app by exact W4. rewrite comps_elem by exact S.
    unfold go_to. cbn [fold_left]. rewrite (go_name [] w) by assumption. reflexivity. }
  assert (list.last (x2f :: w ++ x2f :: l) <> Some x2f) as L.
  { destruct (exists_last A) as (l' & c & ->). rewrite app_comm_cons, app_comm_cons, app_assoc, last_snoc. intros [= ->]. apply S, elem_of_app. right. left. }
  unfold tidy. rewrite G, (decide_False (P := list.last _ = _)) by exact L. split.
  - intros E. split; [exact A|]. split; [intros -> | split; [intros -> |exact S]].
    + rewrite go_skip in E by auto. apply (f_equal length) in E. cbn [length] in E. rewrite !app_length in E. cbn in E. lia.
    + rewrite go_up in E. cbn in E. destruct W as (W & _). destruct w; [contradiction|discriminate].
  - intros (_ & B & D & _). rewrite go_name by assumption. cbn [app slashed]. rewrite <- app_assoc. cbn [app]. rewrite app_nil_r. reflexivity.
Qed.
Lemma fname_public : fname (bs "public").
Proof. split; [discriminate|]. split; [discriminate|]. split; [discriminate|]. intros H. apply elem_of_list_In in H. cbn in H. intuition discriminate. Qed.
Lemma fname_upload : fname (bs "upload").
Proof. split; [discriminate|]. split; [discriminate|]. split; [discriminate|]. intros H. apply elem_of_list_In in H. cbn in H. intuition discriminate. Qed.
Lemma fname_fingerprint : fname (bs "fingerprint").
Proof. split; [discriminate|]. split; [discriminate|]. split; [discriminate|]. intros H. apply elem_of_list_In in H. cbn in H. intuition discriminate. Qed.
Lemma tidy_server : tidy (bs "/public/") = bs "/public/".
Proof. vm_compute. reflexivity. Qed.

Lemma arrive_page p body q : arrive p body = Handled q <-> page p body q.
Proof.
  unfold arrive. rewrite clean_url_is. split.
  - destruct (decide _) as [|T]; [discriminate|]. assert (tidy p = p) as T' by (destruct (decide (tidy p = p)); tauto). clear T.
    destruct (decide (p = bs "/public/")) as [->|Ns]; [intros [= <-]; constructor|].
    destruct (variable (bs "/public/") p) as [l|] eqn:V1.
    { intros [= <-]. apply variable_is in V1 as (-> & A & S). constructor. apply (tidy_label (bs "public")); auto using fname_public. }
    destruct (variable (bs "/upload/") p) as [l|] eqn:V2.
    { intros [= <-]. apply variable_is in V2 as (-> & A & S). apply (tidy_label (bs "upload")) in T'; auto using fname_upload. destruct body; constructor; exact T'. }
    destruct (variable (bs "/fingerprint/") p) as [l|] eqn:V3; [|discriminate].
    intros [= <-]. apply variable_is in V3 as (-> & A & S). constructor. apply (tidy_label (bs "fingerprint")); auto using fname_fingerprint.
  - assert (forall w l, fname l -> fname w -> tidy (x2f :: w ++ x2f :: l) = x2f :: w ++ x2f :: l) as T.
    { intros w l Hl Hw. apply tidy_label; [exact Hw|apply Hl|apply Hl|exact Hl]. }
    assert (forall prefix l, fname l -> variable prefix (prefix ++ l) = Some l) as V.
    { intros prefix l Hl. apply variable_is. split; [reflexivity|]. split; apply Hl. }
    assert (forall a b : bytes, (forall l r, a ++ l <> b ++ r) -> forall l, variable b (a ++ l) = None) as Vn.
    { intros a b D l. destruct (variable b (a ++ l)) as [r|] eqn:E; [|reflexivity]. apply variable_is in E as (E & _). destruct (D l r E). }
    intros H. destruct H as [body|l body Hl|l body Hl|l b Hl|l e Hl].
    + rewrite tidy_server, decide_False by tauto. rewrite decide_True by reflexivity. reflexivity.
    + rewrite (T (bs "public") l Hl fname_public : tidy (bs "/public/" ++ l) = bs "/public/" ++ l). rewrite decide_False by tauto.
      rewrite decide_False by (destruct l; [destruct Hl; contradiction|discriminate]). rewrite V by exact Hl. reflexivity.
    + rewrite (T (bs "fingerprint") l Hl fname_fingerprint : tidy (bs "/fingerprint/" ++ l) = bs "/fingerprint/" ++ l). rewrite decide_False by tauto.
      rewrite decide_False by discriminate. rewrite Vn by discriminate. rewrite Vn by discriminate. rewrite V by exact Hl. reflexivity.
    + rewrite (T (bs "upload") l Hl fname_upload : tidy (bs "/upload/" ++ l) = bs "/upload/" ++ l). rewrite decide_False by tauto.
      rewrite decide_False by discriminate. rewrite Vn by discriminate. rewrite V by exact Hl. reflexivity.
    + rewrite (T (bs "upload") l Hl fname_upload : tidy (bs "/upload/" ++ l) = bs "/upload/" ++ l). rewrite decide_False by tauto.
      rewrite decide_False by discriminate. rewrite Vn by discriminate. rewrite V by exact Hl. reflexivity.
Qed.
Lemma arrive_moved p body to : arrive p body = Moved to <-> p <> tidy p /\ to = tidy p.
Proof.
  unfold arrive. rewrite clean_url_is. destruct (decide _) as [T|T].
  - split; [intros [= <-]; auto|intros [_ ->]; reflexivity].
  - split; [|intros [N _]; destruct T; congruence].
    destruct (decide _); [discriminate|]. destruct (variable _ _); [discriminate|]. destruct (variable _ _); [discriminate|]. destruct (variable _ _); discriminate.
Qed.
Lemma moved_once p body to : arrive p body = Moved to -> forall body' to', arrive to body' <> Moved to'.
Proof. intros H body' to' H'. apply arrive_moved in H as [_ ->]. apply arrive_moved in H' as [N _]. rewrite tidy_twice in N. contradiction. Qed.
Lemma label_asked l : (exists p body, arrive p body = Handled (GetPublic l)) <-> fname l.
Proof.
  split; [|intros F; exists (bs "/public/" ++ l), (inl []); apply arrive_page; constructor; exact F].
  intros (p & body & H). apply arrive_page in H. inversion H; assumption.
Qed.
Lemma label_given p body q c : arrive p body = Handled q -> command_of q = Some c -> fname (cLabel c).
Proof.
  intros H. apply arrive_page in H. destruct H as [|l ? F|l ? F|l ? F|]; intros [= <-]; cbn [cLabel]; try exact F.
  - split; [discriminate|]. split; [discriminate|]. split; [discriminate|]. intros H. apply elem_of_list_In in H. cbn in H. intuition discriminate.
  - rewrite decide_False by apply F. exact F.
Qed.

(** Facts about packing with passcrypt. *)
From Verif Require Export PasscryptFacts.
Local Open Scope Z_scope.

(** *** Resolution, exactly *)
Lemma way_nonnil l cs : way l cs <> [].
Proof. destruct cs; discriminate. Qed.
Lemma resolve_iff f cs : forall l l', resolve f l cs = At l' <-> l' = go_to l cs /\ forall k, k ∈ removelast (way l cs) -> a_dir f k.
Proof.
  induction cs as [|c cs IH]; intros l l'; cbn [resolve way].
  - split; [intros [= <-]; split; [reflexivity|]; intros k Hk; apply elem_of_nil in Hk as []|]. intros [-> _]. reflexivity.
  - assert (removelast (l :: way (go_step l c) cs) = l :: removelast (way (go_step l c) cs)) as ->. { pose proof (way_nonnil (go_step l c) cs). destruct (way (go_step l c) cs); [contradiction|reflexivity]. }
    destruct (f !! l) as [[m|m d|]|] eqn:E.
    + rewrite step_go, IH. change (go_to l (c :: cs)) with (go_to (go_step l c) cs). split; intros [H1 H2]; (split; [exact H1|]); intros k Hk; [apply elem_of_cons in Hk as [->|Hk]; [exists m; exact E|auto]|apply H2; right; exact Hk].
    + split; [discriminate|]. intros [_ H]. destruct (H l) as [m' H']; [left|congruence].
    + split; [discriminate|]. intros [_ H]. destruct (H l) as [m' H']; [left|congruence].
    + split; [discriminate|]. intros [_ H]. destruct (H l) as [m' H']; [left|congruence].
Qed.
Lemma locate_reaches w p n : ready w -> (exists l, locate w p = At l /\ qFs w !! l = Some n) <-> (reaches w p /\ qFs w !! loc w p = Some n).
Proof.
  intros Rw. unfold reaches. destruct (decide (p = [])) as [->|N].
  - split; [intros (l & H & _); discriminate H|]. intros [[X _] _]. contradiction.
  - rewrite locate_is by exact N. split.
    + intros (l & H & E). apply resolve_iff in H as [-> H]. fold (loc w p) in E. split; [|exact E]. split; [exact N|]. split; [exact H|congruence].
    + intros ((_ & H & _) & E). exists (loc w p). split; [apply resolve_iff; auto|exact E].
Qed.

(** *** Walking *)
Lemma fname_comps c : fname c -> comps c = [c].
Proof. intros (_ & _ & _ & S). apply comps_elem, S. Qed.
Lemma loc_fjoin w p c : p <> [] -> fname c -> loc w (fjoin p c) = loc w p ++ [c].
Proof.
  intros N F. assert (base w (fjoin p c) = base w p) as EB.
  { destruct (is_rooted p) eqn:E; [rewrite !rooted_base; [reflexivity|exact E|rewrite rooted_fjoin; assumption]|rewrite !unrooted_base; [reflexivity|exact E|rewrite rooted_fjoin; assumption]]. }
  unfold loc. rewrite EB. rewrite go_fjoin; [|exact N|apply rooted_base]. rewrite (fname_comps c F). apply go_names. constructor; [exact F|constructor].
Qed.
Lemma head_rooted p : bool_decide (head p = Some x2f) = is_rooted p.
Proof. reflexivity. Qed.
Lemma named_fjoin p c s : p <> [] -> fname c -> named (fjoin p c) s = named p (c :: s).
Proof.
  intros N F. unfold named. rewrite !head_rooted, rooted_fjoin by exact N. rewrite fjoin_exact by exact N. rewrite (fname_comps c F). rewrite norm_snoc by exact F. rewrite norm_comps_as_path; [rewrite <- app_assoc; reflexivity|].
  destruct (norm_shape (is_rooted p) p) as (k & ns & -> & Fn & R). exists k, (ns ++ [c]). rewrite <- app_assoc. split; [reflexivity|]. split; [|exact R]. apply Forall_app. split; [exact Fn|constructor; [exact F|constructor]].
Qed.
Lemma named_clean p : clean p = named p [].
Proof. unfold named. rewrite head_rooted, app_nil_r. apply clean_exact. Qed.
Lemma locate_fjoin w p c : ready w -> p <> [] -> fname c -> a_dir (qFs w) (loc w p) -> locate w (fjoin p c) = At (loc w p ++ [c]).
Proof.
  intros Rw N F D. pose proof (clean_path_fjoin w p c N) as Cq. rewrite (fname_comps c F) in Cq. rewrite go_names in Cq by (constructor; [exact F|constructor]). rewrite locate_is by apply Cq.
  destruct Cq as (_ & r & cs & -> & U & EF & R). rewrite EF. apply resolve_clean; [apply Rw|apply ready_base, Rw|exact U|exact R|]. rewrite <- EF. intros k Hk Nk. apply prefix_snoc_cases in Hk as [Hk|Hk]; [contradiction|]. eapply sane_dirs; [apply Rw|exact D|exact Hk].
Qed.

Section WithGzip.
Context (G : gzip).
(** The loop over the names in a directory. *)
Definition pack_names (fuel : nat) (p : bytes) := fix go (names : list bytes) (w : pworld) : option (list file) * pworld :=
  match names with
  | [] => (Some [], w)
  | c :: names =>
      match sys_stat w (fjoin p c) with
      | (Found n, w) =>
          match pack_walk G fuel (fjoin p c) n w with
          | (None, w) => (None, w)
          | (Some a, w) => match go names w with (Some b, w) => (Some (a ++ b), w) | (None, w) => (None, w) end
          end
      | (_, w) => (None, w)
      end
  end.
Lemma pack_walk_S fuel p n w : pack_walk G (S fuel) p n w =
  match n with
  | Other => (Some [], w)
  | Reg _ _ => match pack_file G p w with (Some x, w) => (Some [x], w) | (None, w) => (None, w) end
  | Dir m =>
      let x := File (clean p) (ModeDir + m) [] in
      match sys_names p w with
      | (None, w) => (Some [x], w)
      | (Some names, w) => match pack_names fuel p names w with (Some l, w) => (Some (x :: l), w) | (None, w) => (None, w) end
      end
  end.
Proof. destruct n; reflexivity. Qed.

(** What is packed for some of the names in a directory. *)
Definition listing_of (f : tree) (L : list bytes) (p : bytes) (names : list bytes) (cut : list (list bytes)) (es : list file) : Prop :=
  (forall k, k ∈ cut -> a_dir f (L ++ k) /\ exists c s, k = c :: s /\ c ∈ names) /\
  exists ss, StronglySorted path_lt ss /\ (forall s, s ∈ ss -> exists c s', s = c :: s' /\ c ∈ names) /\
    (forall c s, c ∈ names -> (c :: s) ∈ ss <-> packable f (L ++ c :: s) /\ ~ below cut (c :: s)) /\ Forall2 (entry G f L p) ss es.
Lemma sorted_app {A} (lt : A -> A -> Prop) a b : StronglySorted lt a -> StronglySorted lt b -> (forall x y, x ∈ a -> y ∈ b -> lt x y) -> StronglySorted lt (a ++ b).
Proof.
  intros Sa Sb H. induction Sa as [|x a Sa IH F]; [exact Sb|]. cbn [app]. constructor; [apply IH; intros u v Hu; apply H; right; exact Hu|]. apply Forall_app. split; [exact F|]. apply Forall_forall. intros y Hy. apply H; [left|exact Hy].
Qed.
Lemma sorted_map {A B} (lt : A -> A -> Prop) (lt' : B -> B -> Prop) (g : A -> B) l : (forall x y, lt x y -> lt' (g x) (g y)) -> StronglySorted lt l -> StronglySorted lt' (map g l).
Proof. intros H S. induction S as [|x l S IH F]; [constructor|]. cbn [map]. constructor; [exact IH|]. apply Forall_map. eapply Forall_impl; [exact F|]. intros y Hy. apply H, Hy. Qed.
Lemma below_app a b s : below (a ++ b) s <-> below a s \/ below b s.
Proof. unfold below. split; [intros (k & [H|H]%elem_of_app & X); eauto|]. intros [(k & H & X)|(k & H & X)]; exists k; rewrite elem_of_app; auto. Qed.
Lemma below_cons cut c s : below (map (cons c) cut) (c :: s) <-> below cut s.
Proof.
  unfold below. split.
  - intros (k & H & P & N). apply elem_of_list_In, in_map_iff in H as (k' & <- & H). exists k'. split; [apply elem_of_list_In, H|]. split; [apply prefix_cons_inv_2 in P; exact P|congruence].
  - intros (k & H & P & N). exists (c :: k). split; [apply elem_of_list_In, in_map, elem_of_list_In, H|]. split; [apply prefix_cons, P|congruence].
Qed.
Lemma below_other cut c d s : c <> d -> ~ below (map (cons c) cut) (d :: s).
Proof. intros N (k & H & P & _). apply elem_of_list_In, in_map_iff in H as (k' & <- & H). apply prefix_cons_inv_1 in P. contradiction. Qed.
Lemma listing_of_cons f L p c names cut cut' es es' : p <> [] -> fname c -> Forall (name_lt c) names -> listing G f (L ++ [c]) (fjoin p c) cut es -> listing_of f L p names cut' es' ->
  listing_of f L p (c :: names) (map (cons c) cut ++ cut') (es ++ es').
Proof.
  intros N Fc Fn (A & ss & S & M & E) (A' & ss' & S' & W' & M' & E'). assert (forall s, L ++ c :: s = (L ++ [c]) ++ s) as EL by (intros s; rewrite <- app_assoc; reflexivity).
  assert (c ∉ names) as Nc. { intros H. rewrite Forall_forall in Fn. apply (name_lt_irrefl c), Fn, H. }
  assert (forall s, ~ below cut' (c :: s)) as NB. { intros s (k & Hk & P & _). destruct (A' k Hk) as (_ & d & s' & -> & Hd). apply prefix_cons_inv_1 in P. subst. contradiction. }
  split.
  - intros k [Hk|Hk]%elem_of_app.
    + apply elem_of_list_In, in_map_iff in Hk as (k' & <- & Hk). split; [|exists c, k'; split; [reflexivity|left]]. rewrite EL. apply A, elem_of_list_In, Hk.
    + destruct (A' k Hk) as (D & d & s & -> & Hd). split; [exact D|]. exists d, s. split; [reflexivity|right; exact Hd].
  - exists (map (cons c) ss ++ ss'). split; [|split; [|split]].
    + apply sorted_app; [eapply sorted_map; [|exact S]; intros x y; apply lex_tail|exact S'|]. intros x y Hx Hy. apply elem_of_list_In, in_map_iff in Hx as (x' & <- & _). destruct (W' y Hy) as (d & y' & -> & Hd). apply lex_head. rewrite Forall_forall in Fn. apply Fn, Hd.
    + intros s [Hs|Hs]%elem_of_app; [apply elem_of_list_In, in_map_iff in Hs as (s' & <- & _); exists c, s'; split; [reflexivity|left]|]. destruct (W' s Hs) as (d & s' & -> & Hd). exists d, s'. split; [reflexivity|right; exact Hd].
    + intros d s [->|Hd]%elem_of_cons.
      * rewrite elem_of_app, below_app, below_cons, EL.  split.
        -- intros [H|H]; [|destruct (W' _ H) as (d & s' & [= <- <-] & Hd); contradiction]. apply elem_of_list_In, in_map_iff in H as (s' & [= ->] & H). apply elem_of_list_In, M in H as [H1 H2]. split; [exact H1|]. intros [X|X]; [auto|exact (NB s X)].
        -- intros [H1 H2]. left. apply elem_of_list_In, in_map, elem_of_list_In, M. auto.
      * assert (c <> d) as Ncd by (intros ->; contradiction). rewrite elem_of_app, below_app. split.
        -- intros [H|H]; [apply elem_of_list_In, in_map_iff in H as (s' & [= -> ->] & _); contradiction|]. apply M' in H as [H1 H2]; [|exact Hd]. split; [exact H1|]. intros [X|X]; [exact (below_other _ _ _ _ Ncd X)|auto].
        -- intros [H1 H2]. right. apply M'; [exact Hd|]. split; [exact H1|]. auto.
    + apply Forall2_app; [|exact E']. clear - E EL N Fc. induction E as [|s x ss es H E IH]; [constructor|]. cbn [map]. constructor; [|exact IH]. unfold entry in *. rewrite EL. rewrite (named_fjoin p c s N Fc) in H. exact H.
Qed.
Lemma listing_of_dir f L p m cut es : a_dir f L -> f !! L = Some (Dir m) -> (forall c s n, f !! (L ++ c :: s) = Some n -> c ∈ children f L) -> listing_of f L p (children f L) cut es ->
  listing G f L p cut (File (clean p) (2 ^ 31 + m) [] :: es).
Proof.
  intros D E Hc (A & ss & S & W & M & F). split; [intros c Hk; apply A, Hk|]. exists ([] :: ss). assert ([] ∉ cut) as N0 by (intros H; destruct (A _ H) as (_ & c & s & [=] & _)). split; [|split].
  - constructor; [exact S|]. apply Forall_forall. intros s Hs. destruct (W s Hs) as (c & s' & -> & _). apply lex_nil.
  - intros s. rewrite elem_of_cons. destruct s as [|c s].
    + split; [|auto]. intros _. rewrite app_nil_r. unfold packable. rewrite E. split; [exact I|]. intros (k & Hk & P & N). apply prefix_nil_inv in P. contradiction.
    + split; [intros [H|H]; [discriminate|]; destruct (W _ H) as (c' & s' & [= <- <-] & Hc'); apply M in H; [exact H|exact Hc']|]. intros [H1 H2]. right. apply M; [|auto]. unfold packable in H1. destruct (f !! (L ++ c :: s)) as [n|] eqn:En; [|destruct H1]. eapply Hc, En.
  - constructor; [|exact F]. unfold entry. rewrite app_nil_r, E, named_clean. reflexivity.
Qed.
Lemma listing_cut f L p m : f !! L = Some (Dir m) -> listing G f L p [[]] [File (clean p) (2 ^ 31 + m) []].
Proof.
  intros E. split; [intros c ->%elem_of_list_singleton; rewrite app_nil_r; exists m; exact E|]. exists [[]]. split; [repeat constructor|]. split.
  - intros s. rewrite elem_of_list_singleton. split.
    + intros ->. rewrite app_nil_r. unfold packable. rewrite E. split; [exact I|]. intros (k & _ & P & N). apply prefix_nil_inv in P. contradiction.
    + intros [_ H]. destruct s as [|c s]; [reflexivity|]. exfalso. apply H. exists []. split; [left|]. split; [apply prefix_nil|discriminate].
  - constructor; [|constructor]. unfold entry. rewrite app_nil_r, E, named_clean. reflexivity.
Qed.
Lemma below_nil s : ~ below [] s.
Proof. intros (k & H & _). apply elem_of_nil in H as []. Qed.
Lemma sane_leaf f L n s : sane f -> f !! L = Some n -> ~ a_dir f L -> f !! (L ++ s) <> None -> s = [].
Proof.
  intros S E D H. destruct (f !! (L ++ s)) as [n'|] eqn:E'; [|contradiction]. destruct (sane_prefix f (L ++ s) n' L S E') as [X|X]; [apply prefix_app_r; reflexivity| |contradiction]. symmetry in X. rewrite <- (app_nil_r L) in X at 2. apply app_inv_head in X. exact X.
Qed.
Lemma listing_reg f L p m d : sane f -> f !! L = Some (Reg m d) -> listing G f L p [] [File (clean p) m (gzZip G d)].
Proof.
  intros S E. split; [intros c H; apply elem_of_nil in H as []|]. exists [[]]. split; [repeat constructor|]. split.
  - intros s. rewrite elem_of_list_singleton. split.
    + intros ->. rewrite app_nil_r. unfold packable. rewrite E. split; [exact I|apply below_nil].
    + intros [H _]. eapply sane_leaf; [exact S|exact E|intros [m' X]; congruence|]. unfold packable in H. destruct (f !! (L ++ s)); [discriminate|destruct H].
  - constructor; [|constructor]. unfold entry. rewrite app_nil_r, E, named_clean. reflexivity.
Qed.
Lemma listing_other f L p : sane f -> f !! L = Some Other -> listing G f L p [] [].
Proof.
  intros S E. split; [intros c H; apply elem_of_nil in H as []|]. exists []. split; [constructor|]. split; [|constructor]. intros s. split; [intros H; apply elem_of_nil in H as []|]. intros [H _]. exfalso.
  unfold packable in H. destruct (decide (s = [])) as [->|N]; [rewrite app_nil_r, E in H; exact H|]. apply N. eapply sane_leaf; [exact S|exact E|intros [m' X]; congruence|]. destruct (f !! (L ++ s)); [discriminate|destruct H].
Qed.

(** *** The walk *)
Lemma child_of_path f L c s n : sane f -> f !! (L ++ c :: s) = Some n -> c ∈ children f L.
Proof.
  intros S E. apply children_in. destruct (sane_prefix f (L ++ c :: s) n (L ++ [c]) S E) as [X|[m X]]; [apply prefix_app, prefix_cons, prefix_nil| |eauto]. rewrite X. eauto.
Qed.
Lemma pack_names_spec fuel p : 
  (forall p n w r w', ready w -> p <> [] -> locate w p = At (loc w p) -> qFs w !! loc w p = Some n -> pack_walk G fuel p n w = (r, w') ->
     calm w w' /\ qFs w' = qFs w /\ forall es, r = Some es -> exists cut, listing G (qFs w) (loc w p) p cut es /\ (qFate w = [] -> cut = [])) ->
  forall names w r w', ready w -> p <> [] -> a_dir (qFs w) (loc w p) -> StronglySorted name_lt names -> (forall c, c ∈ names -> fname c) -> pack_names fuel p names w = (r, w') ->
    calm w w' /\ qFs w' = qFs w /\ forall es, r = Some es -> exists cut, listing_of (qFs w) (loc w p) p names cut es /\ (qFate w = [] -> cut = []).
Proof.
  intros IH. induction names as [|c names IHn]; intros w r w' Rw N D Sn Fn H; cbn [pack_names] in H.
  - injection H as <- <-. split; [apply calm_refl|]. split; [reflexivity|]. intros es [= <-]. exists []. split; [|reflexivity]. split; [intros k Hk; apply elem_of_nil in Hk as []|]. exists []. split; [constructor|]. split; [intros s Hs; apply elem_of_nil in Hs as []|]. split; [intros c s Hc; apply elem_of_nil in Hc as []|constructor].
  - unfold sys_stat in H. destruct (fate w) as [x w1] eqn:EF. destruct (fate_calm _ _ _ EF) as (K1 & Ef & N1). pose proof (ready_calm _ _ K1 Ef Rw) as R1. destruct x as [j|]. { injection H as <- <-. split; [exact K1|]. split; [exact Ef|discriminate]. }
    assert (fname c) as Fc by (apply Fn; left). inversion Sn as [|? ? Sn' Fn']; subst.
    assert (a_dir (qFs w1) (loc w1 p)) as D1 by (rewrite Ef, (calm_loc w w1 p K1); exact D).
    rewrite (locate_fjoin w1 p c R1 N Fc D1) in H. rewrite Ef, (calm_loc w w1 p K1) in H. destruct (qFs w !! (loc w p ++ [c])) as [n|] eqn:En. 2: { injection H as <- <-. split; [exact K1|]. split; [exact Ef|discriminate]. }
    destruct (pack_walk G fuel (fjoin p c) n w1) as [r1 w2] eqn:E2. destruct (IH (fjoin p c) n w1 r1 w2 R1 (fjoin_nonnil p c N)) as (K2 & Ef2 & L2); [rewrite (locate_fjoin w1 p c R1 N Fc D1), (loc_fjoin w1 p c N Fc); reflexivity|rewrite (loc_fjoin w1 p c N Fc), Ef, (calm_loc w w1 p K1); exact En|exact E2|].
    pose proof (calm_trans _ _ _ K1 K2) as K12. assert (qFs w2 = qFs w) as E12 by congruence. pose proof (ready_calm _ _ K12 E12 Rw) as R2. destruct r1 as [a|]. 2: { injection H as <- <-. split; [exact K12|]. split; [exact E12|discriminate]. }
    fold (pack_names fuel p) in H. destruct (pack_names fuel p names w2) as [r3 w3] eqn:E3. destruct (IHn w2 r3 w3 R2 N) as (K3 & Ef3 & L3); [rewrite E12, (calm_loc w w2 p K12); exact D|exact Sn'|intros d Hd; apply Fn; right; exact Hd|exact E3|].
    assert (calm w w3 /\ qFs w3 = qFs w) as [K13 E13] by (split; [eapply calm_trans; eassumption|congruence]). destruct r3 as [b|]; injection H as <- <-; (split; [exact K13|]; split; [exact E13|]); [|discriminate].
    intros es [= <-]. destruct (L2 a eq_refl) as (cut & La & Ca). destruct (L3 b eq_refl) as (cut' & Lb & Cb). exists (map (cons c) cut ++ cut'). split.
    + apply listing_of_cons; [exact N|exact Fc|exact Fn'| |].
      * rewrite (loc_fjoin w1 p c N Fc), Ef, (calm_loc w w1 p K1) in La. exact La.
      * rewrite E12, (calm_loc w w2 p K12) in Lb. exact Lb.
    + intros HF. rewrite Ca by apply K1, HF. rewrite Cb by apply K12, HF. reflexivity.
Qed.
Lemma pack_walk_spec fuel : forall p n w r w', ready w -> p <> [] -> locate w p = At (loc w p) -> qFs w !! loc w p = Some n -> pack_walk G fuel p n w = (r, w') ->
  calm w w' /\ qFs w' = qFs w /\ forall es, r = Some es -> exists cut, listing G (qFs w) (loc w p) p cut es /\ (qFate w = [] -> cut = []).
Proof.
  induction fuel as [|fuel IH]; intros p n w r w' Rw N HL E H. { injection H as <- <-. split; [apply calm_refl|]. split; [reflexivity|discriminate]. }
  rewrite pack_walk_S in H. destruct n as [m|m d|].
  - cbv zeta in H. unfold sys_names in H. destruct (fate w) as [x w1] eqn:EF. destruct (fate_calm _ _ _ EF) as (K1 & Ef & N1). pose proof (ready_calm _ _ K1 Ef Rw) as R1. destruct x as [j|].
    { injection H as <- <-. split; [exact K1|]. split; [exact Ef|]. intros es [= <-]. exists [[]]. split; [apply listing_cut, E|]. intros HF. discriminate (N1 HF). }
    assert (locate w1 p = At (loc w p)) as HL1. { revert HL. rewrite !locate_is by exact N. rewrite (calm_base w w1 p K1), Ef. auto. }
    rewrite HL1, Ef in H. destruct (pack_names fuel p (children (qFs w) (loc w p)) w1) as [r1 w2] eqn:E2. pose proof (pack_names_spec fuel p IH (children (qFs w) (loc w p)) w1 r1 w2 R1 N) as X. destruct X as (K2 & Ef2 & L2); [ | | |exact E2|].
    { rewrite Ef, (calm_loc w w1 p K1). exists m. exact E. } { apply children_sorted. } { intros c [n Hn]%children_in. destruct Rw as ((_ & B & _) & _). apply (B _ _ _ Hn). }
    assert (calm w w2 /\ qFs w2 = qFs w) as [K12 E12] by (split; [eapply calm_trans; eassumption|congruence]). destruct r1 as [l|]; injection H as <- <-; (split; [exact K12|]; split; [exact E12|]); [|discriminate].
    intros es [= <-]. destruct (L2 l eq_refl) as (cut & Ll & Cl). rewrite Ef, (calm_loc w w1 p K1) in Ll. exists cut. split; [|intros HF; apply Cl, K1, HF]. apply listing_of_dir; [exists m; exact E|exact E| |exact Ll]. intros c s n Hn. eapply child_of_path; [apply Rw|exact Hn].
  - unfold pack_file, sys_read in H. destruct (fate w) as [x w1] eqn:EF. destruct (fate_calm _ _ _ EF) as (K1 & Ef & N1). destruct x as [j|]. { injection H as <- <-. split; [exact K1|]. split; [exact Ef|discriminate]. }
    assert (locate w1 p = At (loc w p)) as HL1. { revert HL. rewrite !locate_is by exact N. rewrite (calm_base w w1 p K1), Ef. auto. }
    rewrite HL1, Ef, E in H. injection H as <- <-. split; [exact K1|]. split; [exact Ef|]. intros es [= <-]. exists []. split; [|reflexivity]. apply listing_reg; [apply Rw|exact E].
  - injection H as <- <-. split; [apply calm_refl|]. split; [reflexivity|]. intros es [= <-]. exists []. split; [|reflexivity]. apply listing_other; [apply Rw|exact E].
Qed.

(** Enough fuel, and no failing calls. *)
Lemma pack_walk_live fuel : forall p n w, ready w -> p <> [] -> locate w p = At (loc w p) -> qFs w !! loc w p = Some n -> qFate w = [] ->
  (forall s, qFs w !! (loc w p ++ s) <> None -> (length s < fuel)%nat) -> exists es, pack_walk G fuel p n w = (Some es, w).
Proof.
  induction fuel as [|fuel IH]; intros p n w Rw N HL E HF B. { specialize (B []). rewrite app_nil_r, E in B. cbn in B. assert (0 < 0)%nat by (apply B; discriminate). lia. }
  assert (fate w = (None, w)) as Fw by (unfold fate; rewrite HF; reflexivity).
  rewrite pack_walk_S. destruct n as [m|m d|].
  - cbv zeta. unfold sys_names. rewrite Fw, HL. assert (forall names, (forall c, c ∈ names -> fname c /\ exists n, qFs w !! (loc w p ++ [c]) = Some n) -> exists es, pack_names fuel p names w = (Some es, w)) as X.
    { induction names as [|c names IHn]; intros Hn; [eexists; reflexivity|]. cbn [pack_names]. destruct (Hn c) as [Fc [n Ec]]; [left|]. unfold sys_stat. rewrite Fw. assert (a_dir (qFs w) (loc w p)) as D by (exists m; exact E).
      rewrite (locate_fjoin w p c Rw N Fc D). rewrite Ec. destruct (IH (fjoin p c) n w) as [es Ee]; [exact Rw|apply fjoin_nonnil, N|rewrite (locate_fjoin w p c Rw N Fc D), (loc_fjoin w p c N Fc); reflexivity|rewrite (loc_fjoin w p c N Fc); exact Ec|exact HF| |].
      - intros s Hs. rewrite (loc_fjoin w p c N Fc), <- app_assoc in Hs. apply B in Hs. cbn [length app] in Hs. lia.
      - rewrite Ee. fold (pack_names fuel p). destruct IHn as [es' ->]; [intros d Hd; apply Hn; right; exact Hd|]. eexists. reflexivity. }
    destruct (X (children (qFs w) (loc w p))) as [es ->]; [|eexists; reflexivity]. intros c [n Hn]%children_in. split; [|eauto]. destruct Rw as ((_ & B' & _) & _). apply (B' _ _ _ Hn).
  - unfold pack_file, sys_read. rewrite Fw, HL, E. eexists. reflexivity.
  - eexists. reflexivity.
Qed.
Lemma sane_depth f l n : sane f -> f !! l = Some n -> (length l < size f)%nat.
Proof.
  intros S E. assert (NoDup (map (fun i => take i l) (seq 0 (Datatypes.S (length l))))) as ND.
  { rewrite NoDup_alt. intros i j x Hi Hj. rewrite list_lookup_fmap in Hi, Hj. apply fmap_Some in Hi as (a & Ha & ->). apply fmap_Some in Hj as (b & Hb & Eb). apply lookup_seq in Ha as [-> La]. apply lookup_seq in Hb as [-> Lb].
    apply (f_equal length) in Eb. rewrite !take_length in Eb. lia. }
  assert (map (fun i => take i l) (seq 0 (Datatypes.S (length l))) ⊆ map fst (map_to_list f)) as Sub.
  { intros k Hk. apply elem_of_list_In, in_map_iff in Hk as (i & <- & _). assert (exists n', f !! take i l = Some n') as [n' Hn].
    { destruct (sane_prefix f l n (take i l) S E) as [->|[m X]]; [exists (drop i l); symmetry; apply take_drop|eauto|eauto]. }
    apply elem_of_list_In, in_map_iff. exists (take i l, n'). split; [reflexivity|]. apply elem_of_list_In, elem_of_map_to_list, Hn. }
  pose proof (submseteq_length _ _ (NoDup_submseteq _ _ ND Sub)) as L. rewrite !map_length, seq_length in L. unfold size, map_size. lia.
Qed.

Lemma pack_roots_spec paths : forall w r w', ready w -> pack_roots G paths w = (r, w') ->
  calm w w' /\ qFs w' = qFs w /\ forall es, r = Some es -> Forall (reaches w) paths /\ exists cuts, listings G w cuts paths es /\ (qFate w = [] -> Forall (eq []) cuts).
Proof.
  induction paths as [|p paths IH]; intros w r w' Rw H; cbn [pack_roots] in H.
  - injection H as <- <-. split; [apply calm_refl|]. split; [reflexivity|]. intros es [= <-]. split; [constructor|]. exists []. split; [|constructor]. exists []. split; [reflexivity|]. split; [reflexivity|]. split; [reflexivity|]. intros i p c e Hp. rewrite lookup_nil in Hp. discriminate.
  - unfold sys_stat in H. destruct (fate w) as [x w1] eqn:EF. destruct (fate_calm _ _ _ EF) as (K1 & Ef & N1). pose proof (ready_calm _ _ K1 Ef Rw) as R1. destruct x as [j|]. { injection H as <- <-. split; [exact K1|]. split; [exact Ef|discriminate]. }
    destruct (locate w1 p) as [l| |] eqn:EL; [|injection H as <- <-; split; [exact K1|]; split; [exact Ef|discriminate]..]. destruct (qFs w1 !! l) as [n|] eqn:En; [|injection H as <- <-; split; [exact K1|]; split; [exact Ef|discriminate]].
    destruct (proj1 (locate_reaches w1 p n R1)) as [Re E1]; [eauto|]. assert (l = loc w1 p) as ->. { destruct Re as (N & _). rewrite locate_is in EL by exact N. apply resolve_iff in EL as [-> _]. reflexivity. }
    destruct (pack_walk G (S (size (qFs w1))) p n w1) as [r1 w2] eqn:E2. destruct (pack_walk_spec _ _ _ _ _ _ R1 (proj1 Re) EL E1 E2) as (K2 & Ef2 & L2). rewrite (calm_loc w w1 p K1), Ef in L2.
    pose proof (calm_trans _ _ _ K1 K2) as K12. assert (qFs w2 = qFs w) as E12 by congruence. pose proof (ready_calm _ _ K12 E12 Rw) as R2. destruct r1 as [a|]. 2: { injection H as <- <-. split; [exact K12|]. split; [exact E12|discriminate]. }
    destruct (pack_roots G paths w2) as [r3 w3] eqn:E3. destruct (IH w2 r3 w3 R2 E3) as (K3 & Ef3 & L3). assert (calm w w3 /\ qFs w3 = qFs w) as [K13 E13] by (split; [eapply calm_trans; eassumption|congruence]).
    destruct r3 as [b|]; injection H as <- <-; (split; [exact K13|]; split; [exact E13|]); [|discriminate]. intros es [= <-]. destruct (L2 a eq_refl) as (cut & La & Ca). destruct (L3 b eq_refl) as (Rb & cuts & (ess & -> & Lc & Le & Lb) & Cb).
    assert (forall q, reaches w1 q <-> reaches w q) as RE1 by (intros q; unfold reaches; rewrite (calm_base w w1 q K1), (calm_loc w w1 q K1), Ef; reflexivity).
    assert (forall q, reaches w2 q <-> reaches w q) as RE2 by (intros q; unfold reaches; rewrite (calm_base w w2 q K12), (calm_loc w w2 q K12), E12; reflexivity).
    split; [constructor; [apply RE1, Re|eapply Forall_impl; [exact Rb|intros q; apply RE2]]|]. exists (cut :: cuts). split.
    + exists (a :: ess). split; [reflexivity|]. split; [cbn; congruence|]. split; [cbn; congruence|]. intros [|i] q c e Hq Hc He; cbn in Hq, Hc, He; [injection Hq as <-; injection Hc as <-; injection He as <-; exact La|]. specialize (Lb i q c e Hq Hc He). rewrite E12, (calm_loc w w2 q K12) in Lb. exact Lb.
    + intros HF. constructor; [symmetry; apply Ca, K1, HF|apply Cb, K12, HF].
Qed.
Lemma pack_roots_live paths : forall w, ready w -> qFate w = [] -> Forall (reaches w) paths -> exists es, pack_roots G paths w = (Some es, w).
Proof.
  intros w Rw HF Re. assert (fate w = (None, w)) as Fw by (unfold fate; rewrite HF; reflexivity). induction Re as [|p paths Hp Re IH]; [eexists; reflexivity|]. cbn [pack_roots]. unfold sys_stat. rewrite Fw.
  destruct (qFs w !! loc w p) as [n|] eqn:En; [|exfalso; apply Hp, En]. destruct (proj2 (locate_reaches w p n Rw)) as (l & EL & El); [auto|]. assert (l = loc w p) as ->. { destruct Hp as (N & _). rewrite locate_is in EL by exact N. apply resolve_iff in EL as [-> _]. reflexivity. }
  rewrite EL, En. destruct (pack_walk_live (S (size (qFs w))) p n w Rw (proj1 Hp) EL En HF) as [es ->].
  - intros s Hs. destruct (qFs w !! (loc w p ++ s)) as [n'|] eqn:E'; [|contradiction]. apply sane_depth in E'; [|apply Rw]. rewrite app_length in E'. lia.
  - destruct IH as [es' ->]. eexists. reflexivity.
Qed.
End WithGzip.

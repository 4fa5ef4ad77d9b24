(** Facts about passcrypt. *)
From Verif Require Export PathFacts DerFacts PemFacts SecretFacts JsonText SpecPasscrypt.
Local Open Scope Z_scope.

(** *** The model's small functions *)
Lemma split_comps p : split_path p = comps p.
Proof.
  induction p as [|c p IH]; [reflexivity|]. cbn [split_path]. destruct (decide (c = slash)) as [->|N]; [rewrite comps_slash, IH; reflexivity|]. rewrite comps_char by exact N. rewrite IH. reflexivity.
Qed.
Lemma step_go l c : step_to l c = go_step l c.
Proof. reflexivity. Qed.
Lemma start_base w p : start w p = base w p.
Proof. unfold start, base, is_rooted. destruct p as [|c p]; [reflexivity|]. destruct (decide (c = slash)) as [->|N]; [reflexivity|]. rewrite bool_decide_eq_false_2 by (intros [= ->]; contradiction). destruct c; try reflexivity. contradiction. Qed.
Lemma rooted_base w p : is_rooted p = true -> base w p = [].
Proof. unfold is_rooted. intros H%bool_decide_eq_true. destruct p as [|c p]; [discriminate|]. injection H as ->. reflexivity. Qed.
Lemma unrooted_base w p : is_rooted p = false -> base w p = qCwd w.
Proof. intros H. rewrite <- start_base. unfold start. rewrite H. reflexivity. Qed.
Lemma create_lowered w perm : create_mode w perm = lowered (qUmask w) perm.
Proof.
  unfold create_mode, lowered. rewrite Z.ldiff_land. f_equal. change 511 with (Z.ones 9). rewrite Z.land_ones by lia. reflexivity.
Qed.
Lemma lowered_range u perm : 0 <= lowered u perm < 512.
Proof.
  assert (0 <= lowered u perm) as H by (unfold lowered; apply Z.ldiff_nonneg; left; apply Z.mod_pos_bound; lia). split; [exact H|].
  assert (lowered u perm = lowered u perm mod 2 ^ 9) as ->; [|apply Z.mod_pos_bound; lia]. rewrite <- Z.land_ones by lia. symmetry. apply Z.bits_inj'. intros n Hn. rewrite Z.land_spec.
  destruct (decide (n < 9)) as [L|L]; [rewrite Z.ones_spec_low by lia; apply andb_true_r|]. rewrite Z.ones_spec_high by lia. rewrite andb_false_r. unfold lowered. rewrite Z.ldiff_spec. change 512 with (2 ^ 9). rewrite Z.mod_pow2_bits_high by lia. reflexivity.
Qed.
Lemma overwrite_over d old : overwrite d old = over old d.
Proof. reflexivity. Qed.

(** *** Trees *)
Lemma prefix_snoc_cases {A} (k l : list A) c : k `prefix_of` l ++ [c] -> k = l ++ [c] \/ k `prefix_of` l.
Proof.
  intros [r E]. destruct r as [|y r _] using rev_ind; [left; rewrite app_nil_r in E; symmetry; exact E|]. right. rewrite app_assoc in E. apply app_inj_tail in E as [-> _]. apply prefix_app_r. reflexivity.
Qed.
Lemma removelast_prefix {A} (l : list A) : removelast l `prefix_of` l.
Proof. destruct l as [|x l _] using rev_ind; [reflexivity|]. rewrite removelast_last. apply prefix_app_r. reflexivity. Qed.
Lemma sane_parent f l n : sane f -> f !! l = Some n -> l <> [] -> a_dir f (removelast l).
Proof. intros (_ & S & _) H N. destruct l as [|c l _] using rev_ind; [contradiction|]. rewrite removelast_last. apply (S l c n H). Qed.
Lemma sane_prefix f l n k : sane f -> f !! l = Some n -> k `prefix_of` l -> k = l \/ a_dir f k.
Proof.
  intros S. revert n. induction l as [|c l IH] using rev_ind; intros n H P; [left; apply prefix_nil_inv in P; exact P|]. apply prefix_snoc_cases in P as [->|P]; [auto|]. right.
  destruct S as (A & B & D). destruct (B _ _ _ H) as (_ & m & Hm). destruct (IH (Dir m)) as [->|X]; [exact Hm|exact P|exists m; exact Hm|exact X].
Qed.
Lemma sane_dirs f l k : sane f -> a_dir f l -> k `prefix_of` l -> a_dir f k.
Proof. intros S [m H] P. destruct (sane_prefix f l _ k S H P) as [->|X]; [exists m; exact H|exact X]. Qed.
Lemma sane_names f l n : sane f -> f !! l = Some n -> Forall fname l.
Proof.
  intros S. revert n. induction l as [|c l IH] using rev_ind; intros n H; [constructor|]. destruct S as (A & B & D). destruct (B _ _ _ H) as (F & m & Hm). apply Forall_app. split; [eapply IH, Hm|constructor; [exact F|constructor]].
Qed.
Lemma sane_root f : sane f -> a_dir f [].
Proof. intros S. apply S. Qed.
Lemma ready_base w p : ready w -> a_dir (qFs w) (base w p).
Proof. intros [S D]. unfold base. destruct p as [|[] p]; first [exact D|apply sane_root, S]. Qed.

(** Putting a directory or a file where its parent is a directory. *)
Lemma sane_insert f l n : sane f -> (l <> [] -> exists l' c, l = l' ++ [c] /\ fname c /\ a_dir f l') -> (l = [] -> exists m, n = Dir m) ->
  (forall m, n = Dir m -> 0 <= m < 512) -> (forall m d, n = Reg m d -> 0 <= m < 512) ->
  (forall m0, f !! l = Some (Dir m0) -> exists m, n = Dir m) -> sane (<[l := n]> f).
Proof.
  intros (A & B & D & E) P R Pd Pr K. split; [|split; [|split]].
  - destruct (decide (l = [])) as [->|N]; [destruct R as [m ->]; [reflexivity|]; exists m; apply lookup_insert|]. destruct A as [m A]. exists m. rewrite lookup_insert_ne by exact N. exact A.
  - assert (forall k, a_dir f k -> a_dir (<[l := n]> f) k) as X. { intros k [m H]. destruct (decide (l = k)) as [<-|N]; [|exists m; rewrite lookup_insert_ne by exact N; exact H]. destruct (K m H) as [m' ->]. exists m'. apply lookup_insert. }
    intros k c n' H. destruct (decide (l = k ++ [c])) as [->|N].
    + destruct P as (l' & c' & El & F & G); [intros ?; eapply app_cons_not_nil; symmetry; eassumption|]. apply app_inj_tail in El as [-> ->]. auto.
    + rewrite lookup_insert_ne in H by exact N. destruct (B _ _ _ H) as [F G]. auto.
  - intros k m H. destruct (decide (l = k)) as [<-|N]; [rewrite lookup_insert in H; injection H as ->; apply Pd; reflexivity|rewrite lookup_insert_ne in H by exact N; eapply D, H].
  - intros k m d H. destruct (decide (l = k)) as [<-|N]; [rewrite lookup_insert in H; injection H as ->; eapply Pr; reflexivity|rewrite lookup_insert_ne in H by exact N; eapply E, H].
Qed.

(** *** Ways *)
Lemma way_here l cs : l ∈ way l cs.
Proof. destruct cs; left. Qed.
Lemma way_end l cs : go_to l cs ∈ way l cs.
Proof. revert l. induction cs as [|c cs IH]; intros l; [left|]. right. apply IH. Qed.
Lemma way_app l a b k : k ∈ way l (a ++ b) <-> k ∈ way l a \/ k ∈ way (go_to l a) b.
Proof.
  revert l. induction a as [|c a IH]; intros l.
  - cbn [app way]. unfold go_to. cbn [fold_left]. split; [auto|]. intros [H|H]; [|exact H]. apply elem_of_list_singleton in H as ->. apply way_here.
  - cbn [app way]. rewrite !elem_of_cons, IH. change (go_to l (c :: a)) with (go_to (go_step l c) a). tauto.
Qed.
Lemma way_skips l a k : Forall (fun c => c = [] \/ c = bs ".") a -> k ∈ way l a -> k = l.
Proof. induction a as [|c a IH]; intros F H; [apply elem_of_list_singleton in H; exact H|]. inversion F; subst. cbn [way] in H. rewrite go_skip in H by assumption. apply elem_of_cons in H as [->|H]; [reflexivity|auto]. Qed.
Lemma way_ups l j k : k ∈ way l (repeat (bs "..") j) -> k `prefix_of` l.
Proof.
  revert l. induction j as [|j IH]; intros l H; cbn [repeat way] in H; [apply elem_of_list_singleton in H as ->; reflexivity|]. apply elem_of_cons in H as [->|H]; [reflexivity|]. rewrite go_up in H. apply IH in H. etransitivity; [exact H|apply removelast_prefix].
Qed.
Lemma way_names l ns k : Forall fname ns -> k ∈ way l ns <-> l `prefix_of` k /\ k `prefix_of` l ++ ns.
Proof.
  revert l. induction ns as [|c ns IH]; intros l F; cbn [way].
  - rewrite app_nil_r. rewrite elem_of_list_singleton. split; [intros ->; split; reflexivity|]. intros [A B]. apply (anti_symm prefix); assumption.
  - inversion F as [|? ? (A & B & D & _) F']; subst. rewrite elem_of_cons. rewrite go_name by assumption. rewrite IH by exact F'. rewrite <- app_assoc. cbn [app]. split.
    + intros [->|[H1 H2]]; [split; [reflexivity|apply prefix_app_r; reflexivity]|]. split; [|exact H2]. etransitivity; [|exact H1]. apply prefix_app_r. reflexivity.
    + intros [[r ->] H2]. destruct r as [|x r]; [left; apply app_nil_r|]. right. apply prefix_app_inv in H2. split; [|apply prefix_app, H2]. apply prefix_cons_inv_1 in H2 as ->. apply prefix_app. apply prefix_cons, prefix_nil.
Qed.
Lemma way_clean s rooted cs k : ups_names rooted cs -> (rooted = true -> s = []) ->
  (k ∈ way s (comps (as_path rooted cs)) -> k `prefix_of` s \/ k `prefix_of` go_to s cs) /\ (k `prefix_of` go_to s cs -> k `prefix_of` s \/ k ∈ way s (comps (as_path rooted cs))).
Proof.
  intros U R. destruct (comps_as_path rooted cs (ups_names_simple _ _ U)) as (a & b & -> & Fa & Fb & _). destruct U as (j & ns & -> & Fn & _).
  assert (forall k', k' ∈ way s (a ++ (repeat (bs "..") j ++ ns) ++ b) <-> k' ∈ way s (repeat (bs "..") j ++ ns)) as E.
  { intros k'. rewrite !way_app. rewrite !(go_skips _ a) by exact Fa. split; [|tauto]. intros [H|[[H|H]|H]]; [|tauto|tauto|].
    - apply way_skips in H; [|exact Fa]. subst. left. apply way_here.
    - apply way_skips in H; [|exact Fb]. subst. rewrite go_app. right. apply way_end. }
  rewrite E. rewrite way_app. rewrite go_app. set (s' := go_to s (repeat (bs "..") j)). assert (s' `prefix_of` s) as P by (apply (way_ups s j), way_end). rewrite go_names by exact Fn. rewrite (way_names s' ns k Fn). split.
  - intros [H|[_ H]]; [left; eapply way_ups, H|auto].
  - intros H. destruct (prefix_weak_total k s' (s' ++ ns)) as [H1|H1]; [exact H|apply prefix_app_r; reflexivity|left; etransitivity; eassumption|auto].
Qed.

(** *** Resolution *)
Lemma dir_dec f l : {a_dir f l} + {~ a_dir f l}.
Proof. unfold a_dir. destruct (f !! l) as [[m|m d|]|]; [left; eauto|right; intros [? ?]; discriminate..]. Qed.
Lemma resolve_at f cs : forall l l', a_dir f l -> resolve f l cs = At l' -> l' = go_to l cs /\ forall k, k ∈ way l cs -> k = l' \/ a_dir f k.
Proof.
  induction cs as [|c cs IH]; intros l l' D H; cbn [resolve way] in *.
  - injection H as <-. split; [reflexivity|]. intros k Hk. apply elem_of_list_singleton in Hk. auto.
  - destruct D as [m D]. rewrite D in H. rewrite step_go in H. destruct cs as [|d cs].
    + cbn [resolve way] in *. injection H as <-. split; [reflexivity|]. intros k [->|Hk]%elem_of_cons; [right; exists m; exact D|apply elem_of_list_singleton in Hk; auto].
    + destruct (dir_dec f (go_step l c)) as [D'|D'].
      * destruct (IH _ _ D' H) as [-> W]. split; [reflexivity|]. intros k [->|Hk]%elem_of_cons; [right; exists m; exact D|auto].
      * cbn [resolve] in H. exfalso. apply D'. unfold a_dir. destruct (f !! go_step l c) as [[m'|m' x|]|]; [eauto|discriminate..].
Qed.
Lemma resolve_dirs f cs : forall l, (forall k, k ∈ way l cs -> a_dir f k) -> resolve f l cs = At (go_to l cs).
Proof.
  induction cs as [|c cs IH]; intros l D; [reflexivity|]. cbn [resolve]. destruct (D l) as [m E]; [left|]. rewrite E. rewrite step_go. apply IH. intros k Hk. apply D. right. exact Hk.
Qed.
Lemma resolve_app f a : forall l b, resolve f l (a ++ b) = match resolve f l a with At l' => resolve f l' b | x => x end.
Proof. induction a as [|c a IH]; intros l b; [reflexivity|]. cbn [app resolve]. destruct (f !! l) as [[m|m d|]|]; [apply IH|reflexivity..]. Qed.
Lemma resolve_free f cs : forall l, (forall k, k ∈ way l cs -> can_be_dir f k) -> resolve f l cs = At (go_to l cs) \/ resolve f l cs = NoEnt.
Proof.
  induction cs as [|c cs IH]; intros l D; [left; reflexivity|]. cbn [resolve]. destruct (D l) as [E|[m E]]; [left|rewrite E; right; reflexivity|]. rewrite E. rewrite step_go. apply IH. intros k Hk. apply D. right. exact Hk.
Qed.
(** The way of a cleaned path and the prefixes of where it leads. *)
Lemma way_iff f s rooted cs (P : list bytes -> Prop) : sane f -> a_dir f s -> ups_names rooted cs -> (rooted = true -> s = []) -> (forall k, a_dir f k -> P k) ->
  (forall k, k ∈ way s (comps (as_path rooted cs)) -> P k) <-> (forall k, k `prefix_of` go_to s cs -> P k).
Proof.
  intros S D U R HP. split; intros H k Hk; destruct (way_clean s rooted cs k U R) as [X Y].
  - destruct (Y Hk) as [Z|Z]; [apply HP; eapply sane_dirs; eassumption|auto].
  - destruct (X Hk) as [Z|Z]; [apply HP; eapply sane_dirs; eassumption|auto].
Qed.
Lemma resolve_clean f s rooted cs : sane f -> a_dir f s -> ups_names rooted cs -> (rooted = true -> s = []) ->
  (forall k, k `prefix_of` go_to s cs -> k <> go_to s cs -> a_dir f k) -> resolve f s (comps (as_path rooted cs)) = At (go_to s cs).
Proof.
  intros S D U R H. destruct (dir_dec f (go_to s cs)) as [DF|DF].
  { rewrite resolve_dirs; [rewrite go_as_path by (eapply ups_names_simple, U); reflexivity|]. apply (way_iff f s rooted cs (a_dir f)); [assumption..|auto|]. intros k Hk. destruct (decide (k = go_to s cs)) as [->|N]; auto. }
  pose proof U as U0. destruct U as (j & ns & E & Fn & Rj). destruct ns as [|c ns _] using rev_ind.
  { exfalso. apply DF. rewrite E, app_nil_r. eapply sane_dirs; [exact S|exact D|]. apply (way_ups s j), way_end. }
  apply Forall_app in Fn as [Fn Fc]. inversion Fc as [|? ? Fc' _]; subst x l. set (cs' := repeat (bs "..") j ++ ns). assert (cs = cs' ++ [c]) as -> by (rewrite E; apply app_assoc).
  assert (ups_names rooted cs') as U' by (exists j, ns; auto).
  destruct (comps_as_path rooted (cs' ++ [c]) (ups_names_simple _ _ U0)) as (a & b & Ec & Fa & _ & Eb). rewrite Ec. rewrite Eb by (destruct cs'; discriminate). rewrite app_nil_r, app_assoc, resolve_app.
  assert (go_to s (cs' ++ [c]) = go_to s cs' ++ [c]) as EG by (rewrite go_app; apply go_names; constructor; [exact Fc'|constructor]).
  assert (forall k, k `prefix_of` go_to s cs' -> a_dir f k) as DP.
  { intros k Hk. apply H; rewrite EG; [etransitivity; [exact Hk|apply prefix_app_r; reflexivity]|]. intros ->. apply prefix_length in Hk. rewrite app_length in Hk. cbn [length] in Hk. lia. }
  assert (resolve f s (a ++ cs') = At (go_to s cs')) as ->.
  { rewrite resolve_dirs; [rewrite go_app, (go_skips s a Fa); reflexivity|]. intros k Hk. apply way_app in Hk as [Hk|Hk].
    - apply way_skips in Hk; [|exact Fa]. subst. exact D.
    - rewrite go_skips in Hk by exact Fa. revert k Hk. assert (forall k, k ∈ way s (comps (as_path rooted cs')) -> a_dir f k) as X by (apply (way_iff f s rooted cs' (a_dir f)); auto).
      intros k Hk. apply X. destruct (comps_as_path rooted cs' (ups_names_simple _ _ U')) as (a' & b' & -> & Fa' & _). rewrite !way_app. rewrite go_skips by exact Fa'. auto. }
  cbn [resolve]. destruct (DP (go_to s cs')) as [m ->]; [reflexivity|]. rewrite EG. f_equal. destruct Fc' as (A & B & G & _). apply go_name; assumption.
Qed.
Lemma resolve_clean_inv f s rooted cs l : sane f -> a_dir f s -> ups_names rooted cs -> (rooted = true -> s = []) ->
  resolve f s (comps (as_path rooted cs)) = At l -> l = go_to s cs /\ forall k, k `prefix_of` l -> k = l \/ a_dir f k.
Proof.
  intros S D U R H. destruct (resolve_at _ _ _ _ D H) as [E W]. rewrite go_as_path in E by (eapply ups_names_simple, U). split; [exact E|]. intros k Hk. rewrite E in Hk.
  destruct (way_clean s rooted cs k U R) as [_ Y]. destruct (Y Hk) as [Z|Z]; [right; eapply sane_dirs; eassumption|auto].
Qed.

(** *** System calls *)
(** Nothing but files and fates. *)
Definition calm (w w' : pworld) : Prop := qCwd w' = qCwd w /\ qUmask w' = qUmask w /\ qPw w' = qPw w /\ qRng w' = qRng w /\ qOut w' = qOut w /\ (qFate w = [] -> qFate w' = []).
Lemma calm_refl w : calm w w.
Proof. repeat split; auto. Qed.
Lemma calm_trans a b c : calm a b -> calm b c -> calm a c.
Proof. intros (?&?&?&?&?&?) (?&?&?&?&?&?). split_and!; try congruence. auto. Qed.
Lemma fate_calm w x w' : fate w = (x, w') -> calm w w' /\ qFs w' = qFs w /\ (qFate w = [] -> x = None).
Proof. unfold fate. destruct (qFate w) eqn:E; intros [= <- <-]; (split; [repeat split; auto; congruence|split; [reflexivity|congruence]]). Qed.
Lemma calm_base w w' p : calm w w' -> base w' p = base w p.
Proof. intros (E & _). unfold base. rewrite E. reflexivity. Qed.
Lemma calm_fs w f : calm w (set_fs w f).
Proof. repeat split; auto. Qed.
(** Directories come into being. *)
Definition grown (V : list bytes -> Prop) (m : Z) (f f' : tree) : Prop := forall k, f' !! k = f !! k \/ V k /\ f !! k = None /\ f' !! k = Some (Dir m).
Lemma grown_dir V m f f' k : grown V m f f' -> a_dir f k -> a_dir f' k.
Proof. intros G [m' E]. destruct (G k) as [H|(_ & H & _)]; [exists m'; congruence|congruence]. Qed.
Lemma mkdirs_spec cs : forall l perm w b w', ready w -> a_dir (qFs w) l -> Forall (fun c => slash ∉ c) cs -> mkdirs cs l perm w = (b, w') ->
  calm w w' /\ grown (fun k => k ∈ way l cs) (lowered (qUmask w) perm) (qFs w) (qFs w') /\ ready w' /\ (b = true -> forall k, k ∈ way l cs -> a_dir (qFs w') k) /\
  (qFate w = [] -> (forall k, k ∈ way l cs -> can_be_dir (qFs w) k) -> b = true).
Proof.
  induction cs as [|c cs IH]; intros l perm w b w' Rw D F H; cbn [mkdirs] in H.
  - injection H as <- <-. split; [apply calm_refl|]. split; [left; reflexivity|]. split; [exact Rw|]. split; [|reflexivity]. intros _ k Hk. cbn [way] in Hk. apply elem_of_list_singleton in Hk as ->. exact D.
  - inversion F as [|? ? Hc F']; subst. cbn [way]. rewrite step_go in H. destruct (qFs w !! go_step l c) as [[m|m d|]|] eqn:E.
    + destruct (IH (go_step l c) perm w b w') as (K & G & Rw' & T & L); [exact Rw|exists m; exact E|exact F'|exact H|]. split; [exact K|]. split; [|split; [exact Rw'|split]].
      * intros k. destruct (G k) as [X|(X & Y)]; [auto|]. right. split; [right; exact X|exact Y].
      * intros Hb k [->|Hk]%elem_of_cons; [eapply grown_dir; eassumption|auto].
      * intros HF X. apply L; [exact HF|]. intros k Hk. apply X. right. exact Hk.
    + injection H as <- <-. split; [apply calm_refl|]. split; [left; reflexivity|]. split; [exact Rw|]. split; [discriminate|]. intros _ X. destruct (X (go_step l c)) as [Z|[m' Z]]; [right; apply way_here|congruence..].
    + injection H as <- <-. split; [apply calm_refl|]. split; [left; reflexivity|]. split; [exact Rw|]. split; [discriminate|]. intros _ X. destruct (X (go_step l c)) as [Z|[m' Z]]; [right; apply way_here|congruence..].
    + destruct (fate w) as [x w1] eqn:EF. destruct (fate_calm _ _ _ EF) as (K1 & Ef & N1). destruct x as [j|].
      { injection H as <- <-. split; [exact K1|]. split; [left; rewrite Ef; reflexivity|]. split; [destruct Rw; split; [rewrite Ef; assumption|rewrite Ef; destruct K1 as (-> & _); assumption]|]. split; [discriminate|]. intros HF. discriminate (N1 HF). }
      assert (create_mode w1 perm = lowered (qUmask w) perm) as EM by (rewrite create_lowered; destruct K1 as (_ & -> & _); reflexivity). rewrite EM in H. set (w2 := set_fs w1 _) in H.
      assert (qFs w2 = <[go_step l c := Dir (lowered (qUmask w) perm)]> (qFs w)) as E2 by (unfold w2; cbn [qFs set_fs]; rewrite Ef; reflexivity).
      assert (go_step l c = l ++ [c] /\ fname c) as [Eg Fc].
      { unfold go_step in *. destruct (decide (c = [] \/ c = bs ".")) as [|N]; [destruct D as [m D]; congruence|]. destruct (decide (c = bs "..")) as [->|N2].
        - exfalso. destruct (sane_dirs (qFs w) l (removelast l)) as [m X]; [apply Rw|exact D|apply removelast_prefix|congruence].
        - split; [reflexivity|]. split_and!; [intros ->; apply N; auto|intros ->; apply N; auto|exact N2|exact Hc]. }
      assert (ready w2) as R2.
      { destruct Rw as [S Dw]. split; rewrite E2.
        - apply sane_insert; [exact S|intros _; exists l, c; auto|eauto| |discriminate|intros m0; congruence]. intros m [= <-]. apply lowered_range.
        - destruct Dw as [m Dw]. exists m. cbn [qCwd set_fs w2]. destruct K1 as (-> & _). rewrite lookup_insert_ne; [exact Dw|congruence]. }
      destruct (IH (go_step l c) perm w2 b w') as (K & G & Rw' & T & L); [exact R2|exists (lowered (qUmask w) perm); rewrite E2; apply lookup_insert|exact F'|exact H|].
      assert (qUmask w2 = qUmask w) as EU by (cbn; destruct K1 as (_ & -> & _); reflexivity). rewrite EU in G.
      split; [eapply calm_trans; [exact K1|]; eapply calm_trans; [|exact K]; apply calm_fs|]. split; [|split; [exact Rw'|split]].
      * intros k. destruct (decide (go_step l c = k)) as [<-|Nk].
        -- right. split; [right; apply way_here|]. split; [exact E|]. destruct (G (go_step l c)) as [X|(_ & X & _)]; rewrite E2, lookup_insert in X; [exact X|discriminate].
        -- destruct (G k) as [X|(X & Y & Z)]; rewrite E2, lookup_insert_ne in * by exact Nk; [auto|]. right. split; [right; exact X|auto].
      * intros Hb k [->|Hk]%elem_of_cons; [|auto]. eapply grown_dir; [exact G|]. rewrite E2. destruct D as [m D]. exists m. rewrite lookup_insert_ne; [exact D|congruence].
      * intros HF X. apply L; [cbn; destruct K1 as (_ & _ & _ & _ & _ & K1); apply K1, HF|]. intros k Hk. rewrite E2. destruct (decide (go_step l c = k)) as [<-|Nk]; [right; exists (lowered (qUmask w) perm); apply lookup_insert|].
        destruct (X k) as [Z|[m Z]]; [right; exact Hk|left|right; exists m]; rewrite lookup_insert_ne by exact Nk; exact Z.
Qed.

(** A clean path in a world. *)
Definition clean_path (w : pworld) (q : bytes) (F : list bytes) : Prop :=
  q <> [] /\ exists rooted cs, q = as_path rooted cs /\ ups_names rooted cs /\ F = go_to (base w q) cs /\ (rooted = true -> base w q = []).
Lemma clean_path_calm w w' q F : calm w w' -> clean_path w q F -> clean_path w' q F.
Proof. intros K (N & r & cs & E & U & EF & R). split; [exact N|]. exists r, cs. rewrite (calm_base w w' q K). auto. Qed.
Lemma clean_path_of w p : clean_path w (clean p) (loc w p).
Proof.
  split; [apply clean_nonnil|]. exists (is_rooted p), (norm (is_rooted p) (comps p)). rewrite <- clean_exact. assert (base w (clean p) = base w p) as EB.
  { destruct (is_rooted p) eqn:E; [rewrite !rooted_base; [reflexivity|exact E|rewrite rooted_clean; exact E]|rewrite !unrooted_base; [reflexivity|exact E|rewrite rooted_clean; exact E]]. }
  split; [reflexivity|]. split; [apply norm_shape|]. rewrite EB. split; [|intros E; apply rooted_base, E]. symmetry. apply norm_go; [intros E; apply rooted_base, E|apply comps_no_slash].
Qed.
Lemma clean_path_way w q F f (P : list bytes -> Prop) : clean_path w q F -> sane f -> a_dir f (base w q) -> (forall k, a_dir f k -> P k) ->
  (forall k, k ∈ way (base w q) (comps q) -> P k) <-> (forall k, k `prefix_of` F -> P k).
Proof. intros (_ & r & cs & -> & U & -> & R) S D HP. apply way_iff with (f := f); assumption. Qed.
Lemma clean_path_names w q F : ready w -> clean_path w q F -> Forall fname F.
Proof.
  intros Rw (_ & r & cs & -> & (j & ns & -> & Fn & _) & -> & R). rewrite go_app, go_names by exact Fn. apply Forall_app. split; [|exact Fn]. destruct (ready_base w (as_path r (repeat (bs "..") j ++ ns)) Rw) as [m D].
  destruct (sane_dirs (qFs w) (base w (as_path r (repeat (bs "..") j ++ ns))) (go_to (base w (as_path r (repeat (bs "..") j ++ ns))) (repeat (bs "..") j))) as [m' D']; [apply Rw|exists m; exact D|apply (way_ups _ j), way_end|]. eapply sane_names; [apply Rw|exact D'].
Qed.
Lemma locate_is w p : p <> [] -> locate w p = resolve (qFs w) (base w p) (comps p).
Proof. intros N. unfold locate. rewrite decide_False by exact N. rewrite start_base, split_comps. reflexivity. Qed.
Lemma ready_calm w w' : calm w w' -> qFs w' = qFs w -> ready w -> ready w'.
Proof. intros (E & _) Ef [S D]. split; rewrite ?E, Ef; assumption. Qed.

(** A directory that is made unless it is there. *)
Definition ensure (p : bytes) (perm : Z) (w : pworld) : bool * pworld := match sys_stat w p with (Missing, w) => mkdir_all p perm w | (_, w) => (true, w) end.
Lemma ensure_spec p perm w b w' : ready w -> p <> [] -> ensure p perm w = (b, w') ->
  calm w w' /\ grown (fun k => k ∈ way (base w p) (comps p)) (lowered (qUmask w) perm) (qFs w) (qFs w') /\ ready w' /\
  (qFate w = [] -> (forall k, k ∈ way (base w p) (comps p) -> can_be_dir (qFs w) k) -> b = true /\ forall k, k ∈ way (base w p) (comps p) -> a_dir (qFs w') k).
Proof.
  intros Rw N H. unfold ensure, sys_stat in H. destruct (fate w) as [x w1] eqn:EF. destruct (fate_calm _ _ _ EF) as (K1 & Ef & N1). pose proof (ready_calm _ _ K1 Ef Rw) as R1.
  destruct x as [j|]. { injection H as <- <-. split; [exact K1|]. split; [left; rewrite Ef; reflexivity|]. split; [exact R1|]. intros HF. discriminate (N1 HF). }
  rewrite locate_is in H by exact N. rewrite (calm_base _ _ p K1), Ef in H.
  assert (forall q, (match q with Missing => mkdir_all p perm w1 | _ => (true, w1) end) = (b, w') -> (q = Missing \/ b = true /\ w' = w1 /\ q <> Missing)) as X.
  { intros q. destruct q; [intros [= <- <-]; right; auto|left; reflexivity|intros [= <- <-]; right; auto]. }
  set (q := match resolve (qFs w) (base w p) (comps p) with At l => match qFs w !! l with Some n => Found n | None => Missing end | NoEnt => Missing | NotDir => StatErr end) in *.
  assert ((match q with Missing => mkdir_all p perm w1 | _ => (true, w1) end) = (b, w')) as H' by (destruct q; exact H). clear H.
  destruct (X q H') as [E|(-> & -> & E)].
  - rewrite E in H'. unfold mkdir_all in H'. rewrite decide_False in H' by exact N. rewrite split_comps, start_base in H'.
    destruct (mkdirs_spec _ _ _ _ _ _ R1 (ready_base w1 p R1) (comps_no_slash p) H') as (K & G & R' & T & L). rewrite (calm_base _ _ p K1), Ef in *.
    split; [eapply calm_trans; eassumption|]. split; [destruct K1 as (_ & <- & _); exact G|]. split; [exact R'|]. intros HF C. assert (b = true) as -> by (apply L; [destruct K1 as (_ & _ & _ & _ & _ & K1); auto|exact C]). auto.
  - split; [exact K1|]. split; [left; rewrite Ef; reflexivity|]. split; [exact R1|]. intros HF C. split; [reflexivity|]. rewrite Ef. intros k Hk. destruct (resolve_free _ _ _ C) as [Z|Z]; unfold q in E; rewrite Z in E; [|contradiction].
    destruct (qFs w !! go_to (base w p) (comps p)) as [n|] eqn:En; [|contradiction]. destruct (resolve_at _ _ _ _ (ready_base w p Rw) Z) as [_ W]. destruct (W k Hk) as [->|D]; [|exact D].
    destruct (C _ (way_end _ _)) as [Y|Y]; [congruence|exact Y].
Qed.
Lemma grown_clean w q F m f' : ready w -> clean_path w q F -> grown (fun k => k ∈ way (base w q) (comps q)) m (qFs w) f' -> grown (fun k => k `prefix_of` F) m (qFs w) f'.
Proof.
  intros Rw (_ & r & cs & -> & U & -> & R) G k. destruct (G k) as [X|(X & Y & Z)]; [auto|]. right. split; [|auto]. destruct (way_clean (base w (as_path r cs)) r cs k U R) as [A _]. destruct (A X) as [B|B]; [|exact B].
  exfalso. destruct (sane_dirs (qFs w) _ k (proj1 Rw) (ready_base w _ Rw) B) as [m' D]. congruence.
Qed.
Lemma ensure_clean q F perm w b w' : ready w -> clean_path w q F -> ensure q perm w = (b, w') ->
  calm w w' /\ grown (fun k => k `prefix_of` F) (lowered (qUmask w) perm) (qFs w) (qFs w') /\ ready w' /\
  (qFate w = [] -> (forall k, k `prefix_of` F -> can_be_dir (qFs w) k) -> b = true /\ forall k, k `prefix_of` F -> a_dir (qFs w') k).
Proof.
  intros Rw Cq H. destruct (ensure_spec _ _ _ _ _ Rw (proj1 Cq) H) as (K & G & R' & L). split; [exact K|]. split; [apply (grown_clean w q F); assumption|]. split; [exact R'|].
  intros HF X. destruct L as [Hb D]; [exact HF|apply (clean_path_way w q F (qFs w)); [exact Cq|apply Rw|apply ready_base, Rw|intros k Hk; right; exact Hk|exact X]|]. split; [exact Hb|].
  assert (base w' q = base w q) as EB by (apply calm_base, K). apply (clean_path_way w q F (qFs w')); [exact Cq|apply R'|rewrite <- EB; apply ready_base, R'|auto|exact D].
Qed.
Lemma mkdir_clean q F perm w b w' : ready w -> clean_path w q F -> mkdir_all q perm w = (b, w') ->
  calm w w' /\ grown (fun k => k `prefix_of` F) (lowered (qUmask w) perm) (qFs w) (qFs w') /\ ready w' /\ (b = true -> forall k, k `prefix_of` F -> a_dir (qFs w') k) /\
  (qFate w = [] -> (forall k, k `prefix_of` F -> can_be_dir (qFs w) k) -> b = true).
Proof.
  intros Rw Cq H. unfold mkdir_all in H. rewrite decide_False in H by apply Cq. rewrite split_comps, start_base in H. destruct (mkdirs_spec _ _ _ _ _ _ Rw (ready_base w q Rw) (comps_no_slash q) H) as (K & G & R' & T & L).
  split; [exact K|]. split; [apply (grown_clean w q F); assumption|]. split; [exact R'|]. split.
  - intros Hb. assert (base w' q = base w q) as EB by (apply calm_base, K). apply (clean_path_way w q F (qFs w')); [exact Cq|apply R'|rewrite <- EB; apply ready_base, R'|auto|auto].
  - intros HF X. apply L; [exact HF|]. apply (clean_path_way w q F (qFs w)); [exact Cq|apply Rw|apply ready_base, Rw|intros k Hk; right; exact Hk|exact X].
Qed.

(** Opening a file and writing to it. *)
Definition put (q : bytes) (perm : Z) (d : bytes) (ok : bool) (w : pworld) : bool * pworld :=
  match sys_open false q perm w with (None, w) => (false, w) | (Some l, w) => let '(b, w) := sys_write l d w in (b && ok, w) end.
Lemma put_spec q F perm d ok w b w' : ready w -> clean_path w q F -> put q perm d ok w = (b, w') ->
  calm w w' /\ ready w' /\
  ((b = false /\ qFs w' = qFs w) \/
   exists m old d', (qFs w !! F = Some (Reg m old) \/ qFs w !! F = None /\ m = lowered (qUmask w) perm /\ old = []) /\ qFs w' = <[F := Reg m d']> (qFs w) /\
     (b = true -> ok = true /\ d' = over old d) /\ (forall k, k `prefix_of` F -> k <> F -> a_dir (qFs w) k)) /\
  (qFate w = [] -> ok = true -> can_be_file (qFs w) F -> (forall k, k `prefix_of` F -> k <> F -> a_dir (qFs w) k) -> b = true).
Proof.
  intros Rw Cq H. unfold put, sys_open in H. destruct (fate w) as [x w1] eqn:EF. destruct (fate_calm _ _ _ EF) as (K1 & Ef & N1). pose proof (ready_calm _ _ K1 Ef Rw) as R1.
  destruct x as [j|]. { injection H as <- <-. split; [exact K1|]. split; [exact R1|]. split; [left; auto|]. intros HF. discriminate (N1 HF). }
  rewrite locate_is in H by apply Cq. rewrite (calm_base _ _ q K1), Ef in H. pose proof Cq as Cq0. destruct Cq as (Nq & r & cs & -> & U & EF' & R). set (s := base w (as_path r cs)) in *.
  assert ((qFs w !! F = None \/ exists m d0, qFs w !! F = Some (Reg m d0)) -> (forall k, k `prefix_of` F -> k <> F -> a_dir (qFs w) k) -> resolve (qFs w) s (comps (as_path r cs)) = At F) as RL.
  { intros _ X. rewrite EF'. apply resolve_clean; [apply Rw|apply ready_base, Rw|exact U|exact R|]. rewrite <- EF'. exact X. }
  assert ((false, w1) = (b, w') -> ~ (qFate w = [] /\ can_be_file (qFs w) F /\ (forall k, k `prefix_of` F -> k <> F -> a_dir (qFs w) k)) ->
    calm w w' /\ ready w' /\ ((b = false /\ qFs w' = qFs w) \/ exists m old d', (qFs w !! F = Some (Reg m old) \/ qFs w !! F = None /\ m = lowered (qUmask w) perm /\ old = []) /\ qFs w' = <[F := Reg m d']> (qFs w) /\
     (b = true -> ok = true /\ d' = over old d) /\ (forall k, k `prefix_of` F -> k <> F -> a_dir (qFs w) k)) /\
    (qFate w = [] -> ok = true -> can_be_file (qFs w) F -> (forall k, k `prefix_of` F -> k <> F -> a_dir (qFs w) k) -> b = true)) as Fail.
  { intros [= <- <-] X. split; [exact K1|]. split; [exact R1|]. split; [left; auto|]. intros. exfalso. apply X. auto. }
  destruct (resolve (qFs w) s (comps (as_path r cs))) as [l| |] eqn:ER; [|apply Fail; [exact H|intros (_ & A & B); discriminate (RL A B)]..].
  destruct (resolve_clean_inv _ _ _ _ _ (proj1 Rw) (ready_base w _ Rw) U R ER) as [El Pl]. assert (l = F) as -> by (rewrite EF'; exact El). clear El EF'.
  assert (forall k, k `prefix_of` F -> k <> F -> a_dir (qFs w) k) as PF by (intros k Hk Nk; destruct (Pl k Hk); [contradiction|assumption]).
  assert (forall m old, (qFs w !! F = Some (Reg m old) \/ qFs w !! F = None /\ m = lowered (qUmask w) perm /\ old = []) -> forall w2, calm w w2 -> qFs w2 = <[F := Reg m old]> (qFs w) -> (let '(b0, w0) := sys_write F d w2 in (b0 && ok, w0)) = (b, w') ->
    calm w w' /\ ready w' /\ ((b = false /\ qFs w' = qFs w) \/ exists m old d', (qFs w !! F = Some (Reg m old) \/ qFs w !! F = None /\ m = lowered (qUmask w) perm /\ old = []) /\ qFs w' = <[F := Reg m d']> (qFs w) /\
     (b = true -> ok = true /\ d' = over old d) /\ (forall k, k `prefix_of` F -> k <> F -> a_dir (qFs w) k)) /\
    (qFate w = [] -> ok = true -> can_be_file (qFs w) F -> (forall k, k `prefix_of` F -> k <> F -> a_dir (qFs w) k) -> b = true)) as Go.
  { intros m old Ho w2 K2 E2 Hw. assert (forall d', sane (<[F := Reg m d']> (qFs w)) /\ a_dir (<[F := Reg m d']> (qFs w)) (qCwd w)) as SI.
    { intros d'. split; [apply sane_insert|].
      - apply Rw.
      - intros NF. destruct F as [|c F' _] using rev_ind; [contradiction|]. exists F', c. pose proof (clean_path_names w _ _ Rw Cq0) as FN. apply Forall_app in FN as [_ FN]. inversion FN; subst. split; [reflexivity|]. split; [assumption|]. apply PF; [apply prefix_app_r; reflexivity|].
        intros E%(f_equal length). rewrite app_length in E. cbn in E. lia.
      - intros ->. destruct (sane_root _ (proj1 Rw)) as [m0 D0]. destruct Ho as [X|(X & _)]; congruence.
      - discriminate.
      - intros m1 d1 [= <- <-]. destruct Ho as [X|(X & -> & _)]; [|apply lowered_range]. destruct Rw as ((_ & _ & _ & Pr) & _). eapply Pr, X.
      - intros m0 E0. destruct Ho as [X|(X & _)]; congruence.
      - destruct Rw as [_ [m0 D0]]. exists m0. rewrite lookup_insert_ne; [exact D0|]. intros EX. rewrite EX in Ho. destruct Ho as [X|(X & _)]; congruence. }
    unfold sys_write in Hw. destruct (fate w2) as [x w3] eqn:EF2. destruct (fate_calm _ _ _ EF2) as (K3 & Ef3 & N3). rewrite Ef3, E2, lookup_insert in Hw.
    pose proof (calm_trans _ _ _ K2 K3) as K23. destruct x as [n|]; injection Hw as <- <-.
    - split; [eapply calm_trans; [exact K23|apply calm_fs]|]. destruct (SI (overwrite (take n d) old)) as [S1 D1]. split; [split; cbn [qFs set_fs qCwd]; rewrite insert_insert; [exact S1|destruct K23 as (-> & _); exact D1]|].
      split; [right; exists m, old, (overwrite (take n d) old); split; [exact Ho|]; split; [cbn; apply insert_insert|]; split; [discriminate|exact PF]|]. intros HF. destruct K2 as (_ & _ & _ & _ & _ & K2). discriminate (N3 (K2 HF)).
    - split; [eapply calm_trans; [exact K23|apply calm_fs]|]. destruct (SI (overwrite d old)) as [S1 D1]. split; [split; cbn [qFs set_fs qCwd]; rewrite insert_insert; [exact S1|destruct K23 as (-> & _); exact D1]|].
      split; [right; exists m, old, (overwrite d old); split; [exact Ho|]; split; [cbn; apply insert_insert|]; split; [intros Hb; split; [exact Hb|reflexivity]|exact PF]|]. intros _ Hok _ _. exact Hok. }
  destruct (qFs w !! F) as [[m|m old|]|] eqn:EN.
  - apply Fail; [exact H|]. intros (_ & [X|(? & ? & X)] & _); congruence.
  - eapply (Go m old); [auto|eapply calm_trans; [exact K1|apply calm_fs]|cbn; reflexivity|exact H].
  - apply Fail; [exact H|]. intros (_ & [X|(? & ? & X)] & _); congruence.
  - rewrite create_lowered in H. replace (qUmask w1) with (qUmask w) in H by (symmetry; apply K1). eapply (Go (lowered (qUmask w) perm) []); [right; auto|eapply calm_trans; [exact K1|apply calm_fs]|cbn; reflexivity|exact H].
Qed.

(** *** Unpacking *)
Lemma comps_upto p : comps (upto_slash p) = removelast (comps p) ++ [[]].
Proof.
  induction p as [|c p IH]; [reflexivity|]. cbn [upto_slash]. pose proof (comps_nonnil p) as N. assert (upto_slash p = [] -> exists e, comps p = [e]) as X.
  { intros E. rewrite E in IH. cbn in IH. destruct (comps p) as [|e [|e' l]]; [contradiction|eauto|]. cbn [removelast app] in IH. exfalso. injection IH as -> H. destruct l; discriminate. }
  destruct (upto_slash p) as [|u0 u] eqn:Eu.
  - destruct (X eq_refl) as [e Ee]. destruct (decide (c = slash)) as [->|Nc]; [rewrite (comps_slash p), Ee; reflexivity|]. rewrite (comps_char c p) by exact Nc. rewrite Ee. reflexivity.
  - destruct (decide (c = slash)) as [->|Nc].
    + rewrite !comps_slash, IH. destruct (comps p); [contradiction|]. reflexivity.
    + rewrite (comps_char c (u0 :: u)), (comps_char c p) by exact Nc. rewrite IH. destruct (comps p) as [|e [|e' l]] eqn:Ep; [contradiction| |].
      * exfalso. cbn [removelast app] in IH. destruct (decide (u0 = slash)) as [->|N0]; [rewrite comps_slash in IH|rewrite comps_char in IH by exact N0]; [|destruct (comps u); discriminate]. pose proof (comps_nonnil u). destruct (comps u); [contradiction|discriminate].
      * reflexivity.
Qed.
Lemma rooted_upto p : is_rooted (upto_slash p) = is_rooted p.
Proof.
  destruct p as [|c p]; [reflexivity|]. cbn [upto_slash]. destruct (upto_slash p); [|reflexivity]. destruct (decide (c = slash)) as [->|N]; [reflexivity|]. unfold is_rooted. symmetry. apply bool_decide_eq_false_2. intros [= ->]. contradiction.
Qed.
Lemma match_rooted {A} p (a b : A) : match p with x2f :: _ => a | _ => b end = if is_rooted p then a else b.
Proof. unfold is_rooted. destruct p as [|c p]; [reflexivity|]. destruct (decide (c = slash)) as [->|N]; [reflexivity|]. rewrite bool_decide_eq_false_2 by (intros [= ->]; contradiction). destruct c; try reflexivity. contradiction. Qed.
Lemma norm_snoc_nil r cs : norm r (cs ++ [[]]) = norm r cs.
Proof. unfold norm. rewrite fold_left_app. cbn [fold_left]. rewrite norm_step_skip by auto. reflexivity. Qed.
Lemma go_fdir T p : go_to T (comps (fdir p)) = dir_of T p.
Proof.
  unfold dir_of, fdir. rewrite match_rooted. rewrite clean_exact, rooted_upto, go_as_path by apply norm_simple. rewrite comps_upto, norm_snoc_nil. destruct (is_rooted p); [reflexivity|].
  apply norm_go; [discriminate|]. pose proof (comps_no_slash p) as F. pose proof (comps_nonnil p). destruct (comps p) as [|c l _] using rev_ind; [contradiction|]. rewrite removelast_last. apply Forall_app in F. apply F.
Qed.
Lemma norm_no_up T cs : bs ".." ∉ cs -> go_to T (norm true cs) = go_to T cs.
Proof.
  intros N. unfold norm. assert (forall st, go_to T (rev (fold_left (norm_step true) cs st)) = go_to (go_to T (rev st)) cs) as X; [|apply (X [])].
  induction cs as [|c cs IH]; intros st; [reflexivity|]. cbn [fold_left]. apply not_elem_of_cons in N as [Nc N]. rewrite IH by exact N. change (go_to (go_to T (rev st)) (c :: cs)) with (go_to (go_step (go_to T (rev st)) c) cs). f_equal.
  unfold norm_step. destruct (decide _) as [S|S]; [rewrite go_skip by exact S; reflexivity|]. rewrite decide_False by congruence. cbn [rev]. rewrite go_app. reflexivity.
Qed.
Lemma tidy_dest T x : tidy x -> folder x = false -> exists c, dest T x = dir_of T (fPath x) ++ [c] /\ fname c.
Proof.
  unfold tidy, dest, dir_of. intros [Ht Hl] Hf. destruct (Hl Hf) as (l & c & E & Fc). rewrite match_rooted, E in *. exists c. rewrite removelast_last, go_app. split; [|exact Fc].
  rewrite go_names by (constructor; [exact Fc|constructor]). f_equal. destruct (is_rooted (fPath x)) eqn:Er; [|reflexivity].
  symmetry. apply norm_no_up. unfold is_rooted in Er. apply bool_decide_eq_true in Er. intros Hin. apply Ht; [exact Er|]. apply elem_of_app. auto.
Qed.
Lemma clean_path_fjoin w top p : top <> [] -> clean_path w (fjoin top p) (go_to (loc w top) (comps p)).
Proof.
  intros N. unfold fjoin. rewrite decide_False by exact N. replace (go_to (loc w top) (comps p)) with (loc w (top ++ [slash] ++ p)); [apply clean_path_of|]. unfold loc. cbn [app]. rewrite comps_under, go_app. do 2 f_equal. destruct top; [contradiction|reflexivity].
Qed.
Lemma folder_is_dir x : is_dir (fMode x) = folder x.
Proof. reflexivity. Qed.

(** The line printed for a directory. *)

Lemma filter_one {A} (P : A -> bool) x : List.filter P [x] = if P x then [x] else [].
Proof. cbn. destruct (P x); reflexivity. Qed.
Lemma file_at_iff T l x : file_at T l x = true <-> folder x = false /\ dest T x = l.
Proof. unfold file_at. rewrite andb_true_iff, negb_true_iff, bool_decide_eq_true. reflexivity. Qed.

Section WithGzip.
Context (G : gzip).
Lemma unpack_one_spec x top w b w' : ready w -> top <> [] -> unpack_one G x top w = (b, w') ->
  calm (q_print w (dir_line x)) w' /\ ready w' /\ touched (loc w top) [] [x] (qFs w) (qFs w') /\
  (qFate w = [] -> tidy x -> (b = true <-> fits G (loc w top) [] [x] (qFs w)) /\ (b = true -> unpacked G (qUmask w) (loc w top) [] [x] (qFs w) (qFs w'))).
Proof.
  intros Rw Nt H. set (T := loc w top). unfold unpack_one in H. rewrite folder_is_dir in H. unfold dir_line. destruct (folder x) eqn:Ed.
  - set (w0 := q_print w _) in *. assert (ready w0) as R0 by exact Rw. pose proof (clean_path_fjoin w0 top (fPath x) Nt) as Cq. change (loc w0 top) with T in Cq.
    destruct (mkdir_clean _ _ _ _ _ _ R0 Cq H) as (K & Gr & R' & D & L). change (qFs w0) with (qFs w) in *. change (qUmask w0) with (qUmask w) in *. change (qFate w0) with (qFate w) in *.
    assert (needs T x = (dest T x, fMode x)) as EN by (unfold needs; rewrite Ed; reflexivity). fold (dest T x) in *.
    split; [exact K|]. split; [exact R'|]. split.
    { intros l. destruct (Gr l) as [X|(X & Y & Z)]; [auto|]. right. left. split; [exact Y|]. split; [eexists; exact Z|]. right. exists x. rewrite EN. split; [left|exact X]. }
    intros HF _. split.
    + split.
      * intros Hb x' ->%elem_of_list_singleton. rewrite EN. split; [|congruence]. intros l Hl. split; [|intros y ->%elem_of_list_singleton; congruence]. destruct (Gr l) as [X|(_ & X & _)]; [right; unfold a_dir; rewrite <- X; apply D; assumption|left; exact X].
      * intros Hf. apply L; [exact HF|]. intros k Hk. destruct (Hf x) as [X _]; [left|]. rewrite EN in X. apply X, Hk.
    + intros Hb l. assert (List.filter (file_at T l) [x] = []) as E1 by (rewrite filter_one; unfold file_at; rewrite Ed; reflexivity). unfold written. rewrite E1. cbn [head map fold_left]. rewrite decide_False by apply not_elem_of_nil.
      rewrite filter_one. unfold dir_at. rewrite EN. cbn [fst snd]. destruct (Gr l) as [X|(X & Y & Z)].
      * rewrite X. destruct (qFs w !! l) as [[]|] eqn:El; try reflexivity. rewrite bool_decide_eq_false_2; [reflexivity|]. intros P. destruct (D Hb l P) as [m Z]. congruence.
      * rewrite Y, Z. rewrite bool_decide_eq_true_2 by exact X. cbn [head]. rewrite EN. reflexivity.
  - set (w0 := q_print w []) in *. assert (calm w0 w) as K0 by (repeat split; cbn; rewrite ?app_nil_r; auto).
    set (d := clean (fjoin top (fdir (fPath x)))) in *. assert (clean_path w d (dir_of T (fPath x))) as Cd.
    { unfold d. replace (clean (fjoin top (fdir (fPath x)))) with (fjoin top (fdir (fPath x))); [rewrite <- go_fdir; apply clean_path_fjoin, Nt|]. unfold fjoin. rewrite decide_False by exact Nt. symmetry. apply clean_idem. }
    fold (ensure d (dir_perm (fMode x)) w) in H. destruct (ensure d (dir_perm (fMode x)) w) as [b1 w1] eqn:E1. destruct (ensure_clean _ _ _ _ _ _ Rw Cd E1) as (K1 & G1 & R1 & L1).
    assert (needs T x = (dir_of T (fPath x), dir_perm (fMode x))) as EN by (unfold needs; rewrite Ed; reflexivity).
    assert (touched T [] [x] (qFs w) (qFs w1)) as T1. { intros l. destruct (G1 l) as [X|(X & Y & Z)]; [auto|]. right. left. split; [exact Y|]. split; [eexists; exact Z|]. right. exists x. rewrite EN. split; [left|exact X]. }
    assert (forall P : Prop, (qFate w = [] -> tidy x -> fits G T [] [x] (qFs w) -> False) -> qFate w = [] -> tidy x -> (false = true <-> fits G T [] [x] (qFs w)) /\ (false = true -> P)) as FB.
    { intros P X HF Ht. split; [|discriminate]. split; [discriminate|]. intros Hf. destruct (X HF Ht Hf). }
    assert (qFate w = [] -> fits G T [] [x] (qFs w) -> b1 = true /\ forall k, k `prefix_of` dir_of T (fPath x) -> a_dir (qFs w1) k) as L1'.
    { intros HF Hf. apply L1; [exact HF|]. intros k Hk. destruct (Hf x) as [X _]; [left|]. rewrite EN in X. apply X, Hk. }
    destruct b1. 2: { injection H as <- <-. split; [eapply calm_trans; eassumption|]. split; [exact R1|]. split; [exact T1|]. apply FB. intros HF Ht Hf. destruct (L1' HF Hf) as [Hb _]. discriminate Hb. }
    unfold unpack_file in H. destruct (gzRead G (fData x)) as [[dt ok]|] eqn:EG.
    2: { injection H as <- <-. split; [eapply calm_trans; eassumption|]. split; [exact R1|]. split; [exact T1|]. apply FB. intros HF Ht Hf. destruct (Hf x) as [_ X]; [left|]. destruct (X Ed) as (_ & _ & d0 & X'). congruence. }
    fold (put (fjoin top (fPath x)) (fMode x) dt ok w1) in H. pose proof (clean_path_calm _ _ _ _ K1 (clean_path_fjoin w top (fPath x) Nt)) as Cq. fold T in Cq. fold (dest T x) in Cq.
    destruct (put_spec _ _ _ _ _ _ _ _ R1 Cq H) as (K2 & R2 & P2 & L2).
    assert (qUmask w1 = qUmask w) as EU by (destruct K1 as (_ & -> & _); reflexivity). rewrite EU in *.
    split; [eapply calm_trans; [exact K0|]; eapply calm_trans; eassumption|]. split; [exact R2|]. split.
    { destruct P2 as [(-> & ->)|(m & old & d' & Ho & -> & _)]; [exact T1|]. intros l. destruct (decide (dest T x = l)) as [<-|N]; [|rewrite lookup_insert_ne by exact N; apply T1 || idtac].
      - right. right. exists x, d', m. split; [left|]. split; [exact Ed|]. split; [reflexivity|]. split; [apply lookup_insert|]. destruct (G1 (dest T x)) as [X|(X & Y & Z)]; [|left; exact Y]. rewrite X in Ho. destruct Ho as [Ho|(Ho & _)]; eauto.
      - specialize (T1 l) as [X|[(X & (m0 & Y) & Z)|(x' & d0 & m' & Hx & _ & -> & _)]]; [auto|right; left; split; [exact X|]; split; [exists m0; rewrite lookup_insert_ne by exact N; exact Y|exact Z]|]. apply elem_of_list_singleton in Hx as ->. contradiction. }
    intros HF Ht. destruct (tidy_dest T x Ht Ed) as (c & Ec & Sc).
    assert (~ dest T x `prefix_of` dir_of T (fPath x)) as ND. { rewrite Ec. intros Hk%prefix_length. rewrite app_length in Hk. cbn [length] in Hk. lia. }
    assert (qFs w1 !! dest T x = qFs w !! dest T x) as E1d by (destruct (G1 (dest T x)) as [X|(X & _)]; [exact X|contradiction]). rewrite E1d in *.
    assert (b = true -> exists m old d', (qFs w !! dest T x = Some (Reg m old) \/ qFs w !! dest T x = None /\ m = lowered (qUmask w) (fMode x) /\ old = []) /\ qFs w' = <[dest T x := Reg m d']> (qFs w1) /\ (ok = true /\ d' = over old dt) /\ (forall k, k `prefix_of` dest T x -> k <> dest T x -> a_dir (qFs w1) k)) as PT.
    { intros Hb. destruct P2 as [(X & _)|(m & old & d' & A & B & C & D)]; [congruence|]. exists m, old, d'. auto. }
    assert (b = true -> forall k, k `prefix_of` dir_of T (fPath x) -> a_dir (qFs w1) k) as DD.
    { intros Hb k Hk. destruct (PT Hb) as (_ & _ & _ & _ & _ & _ & PF). apply PF; rewrite Ec; [etransitivity; [exact Hk|apply prefix_app_r; reflexivity]|]. intros ->. apply prefix_length in Hk. rewrite app_length in Hk. cbn [length] in Hk. lia. }
    split; [split|].
    + intros Hb x' ->%elem_of_list_singleton. rewrite EN. cbn [fst]. split.
      * intros l Hl. split; [destruct (G1 l) as [X|(_ & X & _)]; [right; unfold a_dir; rewrite <- X; apply DD; assumption|left; exact X]|]. intros y ->%elem_of_list_singleton _ <-. contradiction.
      * intros _. destruct (PT Hb) as (m & old & d' & Ho & _ & (-> & _) & _). split; [destruct Ho as [X|(X & _)]; [right; eauto|left; exact X]|]. split; [apply not_elem_of_nil|eauto].
    + intros Hf. destruct (Hf x) as [X Y]; [left|]. destruct (Y Ed) as (Z & _ & d0 & E0). rewrite EG in E0. injection E0 as -> ->. destruct (L1' HF Hf) as [_ Q]. apply L2; [apply K1, HF|reflexivity|unfold can_be_file; rewrite E1d; exact Z|].
      intros k Hk Nk. apply Q. rewrite Ec in Hk, Nk. apply prefix_snoc_cases in Hk as [Hk|Hk]; [contradiction|exact Hk].
    + intros Hb l. destruct (PT Hb) as (m & old & d' & Ho & -> & (-> & ->) & _). unfold written. rewrite !filter_one. destruct (decide (dest T x = l)) as [<-|N].
      * rewrite lookup_insert. assert (file_at T (dest T x) x = true) as -> by (apply file_at_iff; auto). cbn [head map fold_left]. unfold contents. rewrite EG. destruct Ho as [->|(-> & -> & ->)]; reflexivity.
      * rewrite lookup_insert_ne by exact N. assert (file_at T l x = false) as -> by (apply not_true_is_false; intros X%file_at_iff; apply N, X). cbn [head map fold_left]. rewrite decide_False by apply not_elem_of_nil.
        unfold dir_at. rewrite EN. cbn [fst snd]. destruct (G1 l) as [X|(X & Y & Z)].
        -- rewrite X. destruct (qFs w !! l) as [[]|] eqn:El; try reflexivity. rewrite bool_decide_eq_false_2; [reflexivity|]. intros P. destruct (DD Hb l P) as [m0 Z]. congruence.
        -- rewrite Y, Z. rewrite bool_decide_eq_true_2 by exact X. cbn [head snd]. rewrite EN. reflexivity.
Qed.

Lemma touched_refl T tops es f : touched T tops es f f.
Proof. intros l. left. reflexivity. Qed.
Lemma touched_mono T tops tops' es es' f f' : tops ⊆ tops' -> es ⊆ es' -> touched T tops es f f' -> touched T tops' es' f f'.
Proof.
  intros A B H l. destruct (H l) as [X|[(X & Y & [Z|(x & Z & P)])|(x & d & m & X & Y)]]; [auto|right; left; split; [exact X|]; split; [exact Y|]..|right; right; exists x, d, m; split; [apply B, X|exact Y]]; [left; apply A, Z|right; exists x; split; [apply B, Z|exact P]].
Qed.
Lemma touched_trans T tops es f f1 f2 : touched T tops es f f1 -> touched T tops es f1 f2 -> touched T tops es f f2.
Proof.
  intros A B l. destruct (B l) as [X|[(X & Y & Z)|(x & d & m & X & F & E & Y & Z)]].
  - destruct (A l) as [X'|[(X' & (m & Y') & Z')|(x & d & m & X' & F & E & Y' & Z')]]; [left; congruence|right; left; split; [exact X'|split; [exists m; congruence|exact Z']]|right; right; exists x, d, m; rewrite X; auto].
  - right. left. split; [|auto]. destruct (A l) as [X'|[(X' & (m & Y') & Z')|(x & d & m & _ & _ & _ & Y' & _)]]; congruence.
  - right. right. exists x, d, m. split; [exact X|]. split; [exact F|]. split; [exact E|]. split; [exact Y|]. destruct (A l) as [X'|[(X' & _)|(x' & d' & m' & _ & _ & _ & Y' & Z')]].
    + rewrite <- X'. exact Z.
    + left. exact X'.
    + destruct Z as [Z|[d0 Z]]; [congruence|]. rewrite Y' in Z. injection Z as -> ->. destruct Z' as [Z'|[d1 Z']]; eauto.
Qed.

(** The parts of [fits] and [unpacked] after one entry. *)
Lemma unpacked_dir T u x f f1 l : fits G T [] [x] f -> unpacked G u T [] [x] f f1 -> can_be_dir f1 l <-> can_be_dir f l /\ (folder x = false -> dest T x <> l).
Proof.
  intros Hf U. specialize (U l). unfold can_be_dir, a_dir. rewrite U. unfold written. rewrite !filter_one. destruct (Hf x) as [A B]; [left|]. split.
  - intros H. split.
    + destruct (f !! l) as [[m|m d|]|] eqn:El; [right; eauto| |destruct H as [H|[m0 H]]; discriminate|left; reflexivity]. destruct H as [H|[m0 H]]; discriminate.
    + intros Hx <-. assert (file_at T (dest T x) x = true) as E by (apply file_at_iff; auto). rewrite E in H. destruct (B Hx) as ([X|(m & d & X)] & _); rewrite X in H; cbn in H; destruct H as [H|[m0 H]]; discriminate.
  - intros [[H|[m H]] N]; rewrite H; [|right; eauto]. assert (file_at T l x = false) as -> by (apply not_true_is_false; intros [X Y]%file_at_iff; exact (N X Y)). cbn [head]. rewrite decide_False by apply not_elem_of_nil. destruct (dir_at T l x); cbn [head]; eauto.
Qed.
Lemma unpacked_file T u x f f1 l : fits G T [] [x] f -> unpacked G u T [] [x] f f1 -> can_be_file f1 l <-> can_be_file f l /\ ~ l `prefix_of` fst (needs T x).
Proof.
  intros Hf U. specialize (U l). unfold can_be_file. rewrite U. unfold written. rewrite !filter_one. destruct (Hf x) as [A B]; [left|]. split.
  - intros H. split.
    + destruct (f !! l) as [[m|m d|]|] eqn:El; [destruct H as [H|(?&?&H)]; discriminate|right; eauto|destruct H as [H|(?&?&H)]; discriminate|left; reflexivity].
    + intros P. destruct (A l P) as [[X|[m X]] Y]; rewrite X in H; [|destruct H as [H|(?&?&H)]; discriminate]. assert (file_at T l x = false) as E by (apply not_true_is_false; intros [X1 Y1]%file_at_iff; apply (Y x); [left|exact X1|exact Y1]).
      rewrite E in H. cbn [head] in H. rewrite decide_False in H by apply not_elem_of_nil. unfold dir_at in H. rewrite bool_decide_eq_true_2 in H by exact P. cbn [head] in H. destruct H as [H|(?&?&H)]; discriminate.
  - intros [[H|(m & d & H)] N]; rewrite H; [|right; eauto]. destruct (file_at T l x) eqn:E; cbn [head]; [right; eauto|]. rewrite decide_False by apply not_elem_of_nil. unfold dir_at. rewrite bool_decide_eq_false_2 by exact N. cbn [head]. auto.
Qed.
Lemma fits_cons T u x es f f1 : fits G T [] [x] f -> unpacked G u T [] [x] f f1 -> fits G T [] es f1 <-> fits G T [] (x :: es) f.
Proof.
  intros Hf U. pose proof (fun l => unpacked_dir T u x f f1 l Hf U) as UD. pose proof (fun l => unpacked_file T u x f f1 l Hf U) as UF. destruct (Hf x) as [A B]; [left|]. split.
  - intros H y [->|Hy]%elem_of_cons.
    + split; [|exact B]. intros l Hl. destruct (A l Hl) as [A1 A2]. split; [exact A1|]. intros z [->|Hz]%elem_of_cons Fz; [apply A2; [left|exact Fz]|]. intros <-. destruct (H z Hz) as [_ X]. destruct (X Fz) as (X1 & _). apply UF in X1 as [_ X1]. contradiction.
    + destruct (H y Hy) as [X Y]. split.
      * intros l Hl. destruct (X l Hl) as [X1 X2]. apply UD in X1 as [X1 X3]. split; [exact X1|]. intros z [->|Hz]%elem_of_cons Fz; [auto|]. apply X2; assumption.
      * intros Fy. destruct (Y Fy) as (Y1 & Y2 & Y3). apply UF in Y1 as [Y1 _]. auto.
  - intros H y Hy. destruct (H y) as [X Y]; [right; exact Hy|]. split.
    + intros l Hl. destruct (X l Hl) as [X1 X2]. split; [apply UD; split; [exact X1|]; intros Fx; apply X2; [left|exact Fx]|]. intros z Hz. apply X2. right. exact Hz.
    + intros Fy. destruct (Y Fy) as (Y1 & Y2 & Y3). split; [|auto]. apply UF. split; [exact Y1|]. intros P. destruct (H x) as [Z _]; [left|]. destruct (Z _ P) as [_ Z']. apply (Z' y); [right; exact Hy|exact Fy|reflexivity].
Qed.
Lemma unpacked_cons T u x es f f1 f2 : fits G T [] (x :: es) f -> unpacked G u T [] [x] f f1 -> unpacked G u T [] es f1 f2 -> unpacked G u T [] (x :: es) f f2.
Proof.
  intros Hf U1 U2 l. rewrite U2, U1. unfold written. rewrite !filter_one. rewrite !decide_False by apply not_elem_of_nil. cbn [List.filter]. destruct (Hf x) as [A B]; [left|].
  destruct (file_at T l x) eqn:Ef; cbn [head map fold_left].
  - apply file_at_iff in Ef as [Fx <-]. destruct (B Fx) as ([X|(m & d & X)] & _); rewrite X; reflexivity.
  - destruct (f !! l) as [[m|m d|]|] eqn:El; [reflexivity..|]. destruct (dir_at T l x) eqn:Ed; cbn [head]; [|reflexivity]. unfold dir_at in Ed. apply bool_decide_eq_true in Ed. destruct (A l Ed) as [_ Y].
    assert (List.filter (file_at T l) es = []) as ->; [|reflexivity]. destruct (List.filter (file_at T l) es) as [|y r] eqn:E; [reflexivity|]. exfalso.
    assert (In y (List.filter (file_at T l) es)) as I by (rewrite E; left; reflexivity). apply filter_In in I as [I1 [F1 F2]%file_at_iff]. apply (Y y); [right; apply elem_of_list_In, I1|exact F1|exact F2].
Qed.
Lemma fits_nil T f : fits G T [] [] f.
Proof. intros x H. apply elem_of_nil in H as []. Qed.
Lemma unpacked_nil T u f : unpacked G u T [] [] f f.
Proof. intros l. cbn. rewrite decide_False by apply not_elem_of_nil. destruct (f !! l) as [[]|]; reflexivity. Qed.
Lemma fits_head T x es f : fits G T [] (x :: es) f -> fits G T [] [x] f.
Proof.
  intros H y ->%elem_of_list_singleton. destruct (H x) as [A B]; [left|]. split; [|exact B]. intros l Hl. destruct (A l Hl) as [X Y]. split; [exact X|]. intros z ->%elem_of_list_singleton. apply Y. left.
Qed.

Lemma calm_loc w w' p : calm w w' -> loc w' p = loc w p.
Proof. intros K. unfold loc. rewrite (calm_base w w' p K). reflexivity. Qed.
Lemma unpack_loop_spec es top : forall w b w', ready w -> top <> [] -> unpack_loop G es top w = (b, w') ->
  exists es0, es0 `prefix_of` es /\ (b = true -> es0 = es) /\ calm (q_print w (flat_map dir_line es0)) w' /\ ready w' /\ touched (loc w top) [] es (qFs w) (qFs w') /\
  (qFate w = [] -> Forall tidy es -> (b = true <-> fits G (loc w top) [] es (qFs w)) /\ (b = true -> unpacked G (qUmask w) (loc w top) [] es (qFs w) (qFs w'))).
Proof.
  induction es as [|x es IH]; intros w b w' Rw Nt H; cbn [unpack_loop] in H.
  - injection H as <- <-. exists []. split; [reflexivity|]. split; [reflexivity|]. split; [repeat split; cbn; rewrite ?app_nil_r; auto|]. split; [exact Rw|]. split; [apply touched_refl|]. intros _ _. split; [split; [intros _; apply fits_nil|reflexivity]|]. intros _. apply unpacked_nil.
  - destruct (unpack_one G x top w) as [b1 w1] eqn:E1. destruct (unpack_one_spec _ _ _ _ _ Rw Nt E1) as (K1 & R1 & T1 & L1).
    assert (loc w1 top = loc w top) as EL by (rewrite (calm_loc _ _ top K1); reflexivity). assert (qUmask w1 = qUmask w) as EU by (destruct K1 as (_ & -> & _); reflexivity).
    assert (touched (loc w top) [] (x :: es) (qFs w) (qFs w1)) as T1' by (eapply touched_mono; [reflexivity| |exact T1]; intros y ->%elem_of_list_singleton; left).
    destruct b1.
    + destruct (IH w1 b w' R1 Nt H) as (es0 & P & Eb & K & R' & T2 & L2). exists (x :: es0). split; [apply prefix_cons, P|]. split; [intros Hb; rewrite (Eb Hb); reflexivity|].
      split. { destruct K1 as (?&?&?&?&Eo&EF), K as (?&?&?&?&Eo'&EF'). cbn in *. do 4 (split; [cbn; congruence|]). split; [cbn; rewrite Eo', Eo; symmetry; apply app_assoc|cbn; auto]. }
      split; [exact R'|]. split; [eapply touched_trans; [exact T1'|]; rewrite <- EL; eapply touched_mono; [reflexivity| |exact T2]; intros y Hy; right; exact Hy|].
      intros HF Ft. inversion Ft as [|? ? Hx Ft']; subst. destruct (L1 HF Hx) as [F1 U1]. destruct L2 as [F2 U2]; [apply K1, HF|exact Ft'|]. rewrite EL, EU in *. assert (fits G (loc w top) [] [x] (qFs w)) as Fx by (apply F1; reflexivity).
      pose proof (fits_cons _ _ x es _ _ Fx (U1 eq_refl)) as FC. split; [rewrite F2; exact FC|]. intros Hb. eapply unpacked_cons; [apply FC, F2, Hb|apply U1; reflexivity|apply U2, Hb].
    + injection H as <- <-. exists [x]. split; [apply prefix_cons, prefix_nil|]. split; [discriminate|]. split; [cbn [flat_map]; rewrite app_nil_r; exact K1|]. split; [exact R1|]. split; [exact T1'|].
      intros HF Ft. inversion Ft as [|? ? Hx Ft']; subst. destruct (L1 HF Hx) as [F1 U1]. split; [|discriminate]. split; [discriminate|]. intros Hf. apply F1, (fits_head _ x es), Hf.
Qed.

(** After the output directory is there. *)
Lemma fits_tops T tops es m f f0 : grown (fun k => k ∈ tops) m f f0 -> (forall k, k ∈ tops -> a_dir f0 k) -> fits G T [] es f0 <-> fits G T tops es f.
Proof.
  intros Gr D. assert (forall l, can_be_dir f0 l <-> can_be_dir f l) as A.
  { intros l. unfold can_be_dir, a_dir. destruct (Gr l) as [->|(X & -> & ->)]; [reflexivity|]. split; [left; reflexivity|right; eauto]. }
  assert (forall l, can_be_file f0 l <-> can_be_file f l /\ l ∉ tops) as B.
  { intros l. unfold can_be_file. destruct (Gr l) as [E|(X & E1 & E2)].
    - rewrite E. split; [|tauto]. intros H. split; [exact H|]. intros Hl. destruct (D l Hl) as [m0 E0]. rewrite E in E0. destruct H as [H|(?&?&H)]; congruence.
    - rewrite E1, E2. split; [intros [H|(?&?&H)]; discriminate|]. intros [_ H]. contradiction. }
  split; intros H x Hx; destruct (H x Hx) as [X Y]; (split; [intros l Hl; destruct (X l Hl) as [X1 X2]; split; [apply A, X1|exact X2]|]); intros Fx; destruct (Y Fx) as (Y1 & Y2 & Y3).
  - apply B in Y1 as [Y1 Y1']. auto.
  - split; [apply B; auto|]. split; [apply not_elem_of_nil|exact Y3].
Qed.
Lemma unpacked_tops T tops es u f f0 f' : fits G T tops es f -> grown (fun k => k ∈ tops) (lowered u 493) f f0 -> (forall k, k ∈ tops -> a_dir f0 k) -> unpacked G u T [] es f0 f' -> unpacked G u T tops es f f'.
Proof.
  intros Hf Gr D U l. rewrite U. destruct (Gr l) as [E|(X & E1 & E2)].
  - rewrite E. destruct (f !! l) as [[m|m d|]|] eqn:El; [reflexivity..|]. destruct (head _); [reflexivity|]. rewrite !decide_False; [reflexivity| |apply not_elem_of_nil]. intros Hl. destruct (D l Hl) as [m0 E0]. congruence.
  - rewrite E1, E2. destruct (List.filter (file_at T l) es) as [|y r] eqn:E; cbn [head]; [rewrite decide_True by exact X; reflexivity|]. exfalso.
    assert (In y (List.filter (file_at T l) es)) as I by (rewrite E; left; reflexivity). apply filter_In in I as [I1 [F1 F2]%file_at_iff]. destruct (Hf y) as [_ Z]; [apply elem_of_list_In, I1|]. destruct (Z F1) as (_ & Z1 & _). apply Z1. rewrite F2. exact X.
Qed.
Lemma unpack_files_spec s es top w b w' : ready w -> top <> [] -> parse_files s = Some es -> unpack_files G s top w = (b, w') ->
  let T := loc w top in let tops := way (base w top) (comps top) in
  exists es0, es0 `prefix_of` es /\ (b = true -> es0 = es) /\ calm (q_print w (flat_map dir_line es0)) w' /\ ready w' /\ touched T tops es (qFs w) (qFs w') /\
  (qFate w = [] -> (forall k, k ∈ tops -> can_be_dir (qFs w) k) -> Forall tidy es -> (b = true <-> fits G T tops es (qFs w)) /\ (b = true -> unpacked G (qUmask w) T tops es (qFs w) (qFs w'))).
Proof.
  intros Rw Nt P H T tops. unfold unpack_files in H. rewrite P in H. fold (ensure top 493 w) in H. destruct (ensure top 493 w) as [b1 w1] eqn:E1. destruct (ensure_spec _ _ _ _ _ Rw Nt E1) as (K1 & G1 & R1 & L1). fold tops in G1, L1.
  assert (touched T tops es (qFs w) (qFs w1)) as T1. { intros l. destruct (G1 l) as [X|(X & Y & Z)]; [auto|]. right. left. split; [exact Y|]. split; [eexists; exact Z|]. left. exact X. }
  destruct b1.
  - destruct (unpack_loop_spec _ _ _ _ _ R1 Nt H) as (es0 & P0 & Eb & K & R' & T2 & L2). rewrite (calm_loc w w1 top K1) in *. fold T in T2, L2. exists es0. split; [exact P0|]. split; [exact Eb|].
    split. { destruct K1 as (?&?&?&?&Eo&EF), K as (?&?&?&?&?&EF'). cbn in *. do 5 (split; [cbn; congruence|]). cbn. auto. }
    split; [exact R'|]. split; [eapply touched_trans; [exact T1|]; eapply touched_mono; [|reflexivity|exact T2]; intros y Hy; apply elem_of_nil in Hy as []|].
    intros HF C Ft. destruct (L1 HF C) as [_ D]. destruct L2 as [F2 U2]; [apply K1, HF|exact Ft|]. pose proof (fits_tops T tops es _ _ _ G1 D) as FT. split; [rewrite F2; exact FT|]. intros Hb. eapply unpacked_tops; [apply FT, F2, Hb|exact G1|exact D|].
    destruct K1 as (_ & <- & _). apply U2, Hb.
  - injection H as <- <-. exists []. split; [apply prefix_nil|]. split; [discriminate|]. split; [destruct K1 as (?&?&?&?&?&?); repeat split; cbn; rewrite ?app_nil_r; auto|]. split; [exact R1|]. split; [exact T1|].
    intros HF C Ft. destruct (L1 HF C) as [X _]. discriminate X.
Qed.
End WithGzip.

(** *** Order *)
Lemma lex_trans {A} (lt : A -> A -> Prop) : (forall x y z, lt x y -> lt y z -> lt x z) -> forall a b c, lex lt a b -> lex lt b c -> lex lt a c.
Proof.
  intros T a b c H. revert c. induction H as [y b|x y a b Hxy|x a b H IH]; intros c Hc; inversion Hc; subst; first [apply lex_nil|solve [apply lex_tail; auto]|solve [apply lex_head; eauto]].
Qed.
Lemma lex_prefix {A} (lt : A -> A -> Prop) : (forall x, ~ lt x x) -> forall a b, lex lt a b -> ~ b `prefix_of` a.
Proof.
  intros I a b H. induction H as [y b|x y a b Hxy|x a b H IH]; intros P; [apply prefix_nil_not in P as []|apply prefix_cons_inv_1 in P; subst; eapply I; eassumption|apply prefix_cons_inv_2 in P; auto].
Qed.
Lemma lex_irrefl {A} (lt : A -> A -> Prop) : (forall x, ~ lt x x) -> forall a, ~ lex lt a a.
Proof. intros I a H. eapply lex_prefix; [exact I|exact H|reflexivity]. Qed.
Lemma name_lt_trans a b c : name_lt a b -> name_lt b c -> name_lt a c.
Proof. apply lex_trans. intros; lia. Qed.
Lemma name_lt_irrefl a : ~ name_lt a a.
Proof. apply lex_irrefl. intros; lia. Qed.
Lemma path_lt_prefix a b : path_lt a b -> ~ b `prefix_of` a.
Proof. apply lex_prefix, name_lt_irrefl. Qed.
Lemma name_le_iff a : forall b, name_le a b = true <-> name_lt a b \/ a = b.
Proof.
  induction a as [|x a IH]; intros [|y b]; cbn [name_le].
  - split; auto.
  - split; [intros _; left; constructor|reflexivity].
  - split; [discriminate|]. intros [H|H]; [inversion H|discriminate].
  - destruct (decide (bz x = bz y)) as [E|N].
    + apply bz_inj in E as ->. rewrite IH. split.
      * intros [H| ->]; [left; apply lex_tail, H|auto].
      * intros [H|H]; [|injection H; auto]. inversion H; subst; [lia|auto].
    + rewrite bool_decide_eq_true. split; [intros H; left; apply lex_head; lia|]. intros [H|H]; [inversion H; subst; [assumption|contradiction]|congruence].
Qed.
Lemma name_le_total a : forall b, name_le a b = false -> name_lt b a.
Proof.
  induction a as [|x a IH]; intros [|y b]; cbn [name_le]; [discriminate..|constructor|]. destruct (decide (bz x = bz y)) as [E|N]; [apply bz_inj in E as ->; intros H; apply lex_tail, IH, H|]. intros H%bool_decide_eq_false. apply lex_head. lia.
Qed.
Lemma insert_name_in n l c : c ∈ insert_name n l <-> c = n \/ c ∈ l.
Proof. induction l as [|x l IH]; cbn [insert_name]; [rewrite elem_of_list_singleton; split; [auto|]; intros [H|H]; [exact H|apply elem_of_nil in H as []]|]. destruct (name_le n x); rewrite !elem_of_cons; [tauto|]. rewrite IH. tauto. Qed.
Lemma insert_name_sorted n l : StronglySorted name_lt l -> n ∉ l -> StronglySorted name_lt (insert_name n l).
Proof.
  intros S. induction S as [|x l S IH F]; intros N; cbn [insert_name]; [constructor; constructor|]. apply not_elem_of_cons in N as [Nx N]. destruct (name_le n x) eqn:E.
  - apply name_le_iff in E as [E| ->]; [|contradiction]. constructor; [constructor; assumption|]. constructor; [exact E|]. eapply Forall_impl; [exact F|]. intros y Hy. eapply name_lt_trans; eassumption.
  - apply name_le_total in E. constructor; [auto|]. apply Forall_forall. intros y [->|Hy]%insert_name_in; [exact E|]. rewrite Forall_forall in F. auto.
Qed.
Lemma sort_names_in l c : c ∈ sort_names l <-> c ∈ l.
Proof. induction l as [|x l IH]; [reflexivity|]. cbn [sort_names fold_right]. fold (sort_names l). rewrite insert_name_in, IH, elem_of_cons. reflexivity. Qed.
Lemma sort_names_sorted l : NoDup l -> StronglySorted name_lt (sort_names l).
Proof. induction 1 as [|x l N D IH]; [constructor|]. cbn [sort_names fold_right]. fold (sort_names l). apply insert_name_sorted; [exact IH|]. rewrite sort_names_in. exact N. Qed.
Lemma last_app_one {A} (l : list A) x : last (l ++ [x]) = Some x.
Proof. apply last_snoc. Qed.
Lemma children_in f l c : c ∈ children f l <-> exists n, f !! (l ++ [c]) = Some n.
Proof.
  unfold children. rewrite sort_names_in, elem_of_list_omap. split.
  - intros (k & Hk & E). apply elem_of_list_In, in_map_iff in Hk as ([k' n] & <- & Hk). cbn [fst] in E. apply elem_of_list_In, elem_of_map_to_list in Hk. destruct (decide _) as [[N R]|]; [|discriminate].
    destruct k' as [|d k' _] using rev_ind; [contradiction|]. rewrite removelast_last in R. subst. rewrite last_app_one in E. injection E as ->. eauto.
  - intros [n H]. exists (l ++ [c]). split.
    + apply elem_of_list_In, in_map_iff. exists (l ++ [c], n). split; [reflexivity|]. apply elem_of_list_In, elem_of_map_to_list, H.
    + rewrite decide_True by (split; [destruct l; discriminate|apply removelast_last]). apply last_app_one.
Qed.
Lemma omap_nodup {A B} (g : A -> option B) l : NoDup l -> (forall x y z, g x = Some z -> g y = Some z -> x = y) -> NoDup (omap g l).
Proof.
  intros D I. induction D as [|x l N D IH]; [constructor|]. cbn. destruct (g x) as [z|] eqn:E; [|exact IH]. constructor; [|exact IH]. intros (y & Hy & Ey)%elem_of_list_omap. apply N. rewrite (I x y z E Ey). exact Hy.
Qed.
Lemma children_sorted f l : StronglySorted name_lt (children f l).
Proof.
  apply sort_names_sorted, omap_nodup.
  - pose proof (NoDup_fst_map_to_list f) as X. exact X.
  - intros x y z. destruct (decide _) as [[N1 R1]|]; [|discriminate]. destruct (decide _) as [[N2 R2]|]; [|discriminate]. destruct x as [|a x _] using rev_ind; [contradiction|]. destruct y as [|b y _] using rev_ind; [contradiction|].
    rewrite !removelast_last in *. subst. rewrite !last_app_one. congruence.
Qed.

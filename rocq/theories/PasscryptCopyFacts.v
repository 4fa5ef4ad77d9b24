(** Unpacking what was packed. *)
From Verif Require Export PasscryptOpenFacts.
From Verif Require Import SecretFacts.
Local Open Scope Z_scope.

(** *** Names and places *)
Lemma root_names_ok p : bs ".." ∉ root_names p -> Forall fname (root_names p).
Proof.
  intros N. unfold root_names in *. rewrite head_rooted in *. destruct (norm_shape (is_rooted p) p) as (k & ns & E & F & _). rewrite E in *. destruct k as [|k]; [exact F|]. exfalso. apply N. left.
Qed.
Lemma named_go T p s : bs ".." ∉ root_names p -> Forall fname s -> go_to T (comps (named p s)) = T ++ root_names p ++ s.
Proof.
  intros N Fs. assert (Forall fname (root_names p ++ s)) as F by (apply Forall_app; split; [apply root_names_ok, N|exact Fs]). unfold named. fold (root_names p). rewrite go_as_path; [apply go_names, F|]. eapply Forall_impl; [exact F|]. apply fname_simple.
Qed.
Lemma fname_up c : fname c -> c <> bs "..".
Proof. intros (_ & _ & H & _). exact H. Qed.
Lemma named_tidy p s m d : bs ".." ∉ root_names p -> Forall fname s -> (Z.testbit m 31 = false -> root_names p ++ s <> []) -> tidy (File (named p s) m d).
Proof.
  intros N Fs H. assert (Forall fname (root_names p ++ s)) as F by (apply Forall_app; split; [apply root_names_ok, N|exact Fs]). assert (Forall simple (root_names p ++ s)) as Fm by (eapply Forall_impl; [exact F|]; apply fname_simple).
  unfold tidy, named, folder. cbn [fPath fMode]. fold (root_names p). set (r := bool_decide _). destruct (comps_as_path r _ Fm) as (a & b & -> & Fa & Fb & Eb). split.
  - intros _ X. rewrite !elem_of_app in X. rewrite Forall_forall in Fa, Fb, F. destruct X as [X|[X|X]].
    + destruct (Fa _ X) as [Y|Y]; discriminate Y.
    + apply elem_of_app, F, fname_up in X. contradiction.
    + destruct (Fb _ X) as [Y|Y]; discriminate Y.
  - intros M. specialize (H M). rewrite (Eb H), app_nil_r. destruct (exists_last H) as (u & c & E). rewrite E in *. exists (a ++ u), c. split; [rewrite <- !app_assoc; reflexivity|]. apply Forall_app in F as [_ F]. inversion F; assumption.
Qed.
Lemma prefix_way cs : forall l k, k `prefix_of` go_to l cs -> k `prefix_of` l \/ k ∈ way l cs.
Proof.
  induction cs as [|c cs IH]; intros l k H; [left; exact H|]. change (k `prefix_of` go_to (go_step l c) cs) in H. cbn [way]. apply IH in H as [H|H]; [|right; right; exact H]. unfold go_step in H at 1. case_decide; [left; exact H|]. case_decide; [left; etransitivity; [exact H|apply removelast_prefix]|].
  apply prefix_snoc_cases in H as [->|H]; [|left; exact H]. right. right. assert (go_step l c = l ++ [c]) as <- by (unfold go_step; rewrite !decide_False by assumption; reflexivity). apply way_here.
Qed.

Section WithGzip.
Context (G : gzip).

(** *** All entries in order, with the root and the place below it *)
Definition tag_lt (a b : nat * list bytes) : Prop := (a.1 < b.1)%nat \/ a.1 = b.1 /\ path_lt a.2 b.2.
Lemma listings_tags f (at_ : bytes -> list bytes) paths : forall k cuts ess, length cuts = length paths -> length ess = length paths ->
  (forall i p c e, paths !! i = Some p -> cuts !! i = Some c -> ess !! i = Some e -> listing G f (at_ p) p c e) ->
  exists ts, Forall2 (fun t x => (k <= t.1)%nat /\ exists p, paths !! (t.1 - k)%nat = Some p /\ entry G f (at_ p) p t.2 x) ts (concat ess) /\ StronglySorted tag_lt ts /\
    forall i s, (k + i, s)%nat ∈ ts <-> exists p c, paths !! i = Some p /\ cuts !! i = Some c /\ packable f (at_ p ++ s) /\ ~ below c s.
Proof.
  induction paths as [|p paths IH]; intros k [|c cuts] [|e ess] Lc Le H; try discriminate.
  - exists []. split; [constructor|]. split; [constructor|]. intros i s. split; [intros X; apply elem_of_nil in X as []|]. intros (p & c & X & _). rewrite lookup_nil in X. discriminate.
  - destruct (H 0%nat p c e eq_refl eq_refl eq_refl) as (_ & ss & S & M & F). destruct (IH (1 + k)%nat cuts ess) as (ts & F' & S' & M'); [cbn in Lc; lia|cbn in Le; lia|intros i; apply (H (1 + i)%nat)|]. exists (map (pair k) ss ++ ts). split; [|split].
    + cbn [concat]. apply Forall2_app.
      * clear - F. induction F as [|s x ss e Hx F IH]; [constructor|]. cbn [map]. constructor; [|exact IH]. cbn [fst snd]. split; [lia|]. exists p. rewrite Nat.sub_diag. auto.
      * eapply Forall2_impl; [exact F'|]. intros [i s] x (A & q & B & D). cbn [fst snd] in *. split; [lia|]. exists q. destruct (i - k)%nat as [|j] eqn:Ej; [lia|]. split; [|exact D]. cbn. replace j with (i - Datatypes.S k)%nat by lia. exact B.
    + apply sorted_app; [eapply sorted_map; [|exact S]; intros x y Hxy; right; auto|exact S'|]. intros x y Hx Hy. apply elem_of_list_In, in_map_iff in Hx as (s & <- & _). left. cbn [fst].
      apply elem_of_list_lookup in Hy as [j Hj]. destruct (Forall2_lookup_l _ _ _ _ _ F' Hj) as (x & _ & X & _). lia.
    + intros i s. rewrite elem_of_app. destruct i as [|i].
      * rewrite Nat.add_0_r. cbn [lookup list_lookup]. split.
        -- intros [X|X]; [apply elem_of_list_In, in_map_iff in X as (s' & [= ->] & X); apply elem_of_list_In, M in X; exists p, c; tauto|]. exfalso. apply elem_of_list_lookup in X as [j Hj]. destruct (Forall2_lookup_l _ _ _ _ _ F' Hj) as (x & _ & X & _). cbn in X. lia.
        -- intros (p' & c' & [= <-] & [= <-] & X). left. apply elem_of_list_In, in_map, elem_of_list_In, M, X.
      * cbn [lookup list_lookup]. replace (k + Datatypes.S i)%nat with (1 + k + i)%nat by lia. rewrite M'. split; [|intros X; right; exact X]. intros [X|X]; [|exact X]. apply elem_of_list_In, in_map_iff in X as (s' & [= E] & _). lia.
Qed.
Lemma head_filter_sorted {A B} (lt : A -> A -> Prop) (E : A -> B -> Prop) (P : B -> bool) ts es t x : StronglySorted lt ts -> Forall2 E ts es -> t ∈ ts -> P x = true -> (forall y, E t y -> y = x) ->
  (forall t' y, t' ∈ ts -> E t' y -> P y = true -> lt t' t -> False) -> head (List.filter P es) = Some x.
Proof.
  intros S F. revert t x. induction F as [|t1 x1 ts es H1 F IH]; intros t x Ht Px U N; [apply elem_of_nil in Ht as []|]. inversion S as [|? ? S' Fa]; subst. cbn [List.filter]. apply elem_of_cons in Ht as [->|Ht].
  - rewrite (U x1 H1), Px. reflexivity.
  - destruct (P x1) eqn:P1; [|apply (IH S' t); [exact Ht|exact Px|exact U|]; intros t' y Ht'; apply N; right; exact Ht']. exfalso. eapply N; [left|exact H1|exact P1|]. rewrite Forall_forall in Fa. apply Fa, Ht.
Qed.
Lemma head_filter_none {A} (P : A -> bool) l : (forall x, x ∈ l -> P x = true -> False) -> List.filter P l = [].
Proof. intros H. induction l as [|x l IH]; [reflexivity|]. cbn [List.filter]. destruct (P x) eqn:E; [destruct (H x); [left|exact E]|]. apply IH. intros y Hy. apply H. right. exact Hy. Qed.
Lemma over_same d : over d d = d.
Proof. unfold over. rewrite drop_ge by lia. apply app_nil_r. Qed.
Lemma over_nil d : over [] d = d.
Proof. unfold over. rewrite drop_nil. apply app_nil_r. Qed.
Lemma written_same T es l d : (exists x, x ∈ es /\ file_at T l x = true) -> (forall x, x ∈ es -> file_at T l x = true -> contents G x = d) -> written G T es l [] = d.
Proof.
  intros (x & Hx & Fx) H. unfold written. assert (Forall (eq d) (map (contents G) (List.filter (file_at T l) es))) as F. { apply Forall_forall. intros y Hy. apply elem_of_list_In, in_map_iff in Hy as (z & <- & Hz). apply filter_In in Hz as [Hz1 Hz2]. symmetry. apply H; [apply elem_of_list_In, Hz1|exact Hz2]. }
  assert (List.filter (file_at T l) es <> []) as N. { intros E. assert (In x (List.filter (file_at T l) es)) as X by (apply filter_In; split; [apply elem_of_list_In, Hx|exact Fx]). rewrite E in X. destruct X. }
  destruct (List.filter (file_at T l) es) as [|y r]; [contradiction|]. cbn [map fold_left] in *. inversion F as [|? ? E F']; subst. rewrite over_nil. clear - F'. revert F'. generalize (map (contents G) r). intros z F'. induction F' as [|? z E F IH]; [reflexivity|]. cbn [fold_left]. rewrite <- E, over_same. exact IH.
Qed.
Lemma lowered_dir u m : 0 <= m < 512 -> lowered u (2 ^ 31 + m) = lowered u m.
Proof. intros H. unfold lowered. replace (2 ^ 31 + m) with (m + 4194304 * 512) by lia. rewrite Z_mod_plus_full. reflexivity. Qed.
Lemma folder_dir m : 0 <= m < 512 -> Z.testbit (2 ^ 31 + m) 31 = true.
Proof. intros H. rewrite Z.testbit_true by lia. replace (2 ^ 31 + m) with (m + 1 * 2 ^ 31) by lia. rewrite Z.div_add by lia. rewrite Z.div_small by lia. reflexivity. Qed.
Lemma folder_reg m : 0 <= m < 512 -> Z.testbit m 31 = false.
Proof. intros H. rewrite Z.testbit_false by lia. rewrite Z.div_small by lia. reflexivity. Qed.

(** *** The copy *)
Lemma copy_spec w cuts paths es T tops f2 :
  ready w -> listings G w cuts paths es -> Forall (eq []) cuts -> Forall (fun p => bs ".." ∉ root_names p) paths ->
  (forall i j p q, paths !! i = Some p -> paths !! j = Some q -> root_names p `prefix_of` root_names q -> i = j) ->
  (forall d, gzRead G (gzZip G d) = Some (d, true)) ->
  (forall k, k `prefix_of` T -> can_be_dir f2 k) -> (forall u, u <> [] -> f2 !! (T ++ u) = None /\ T ++ u ∉ tops) ->
  Forall tidy es /\ fits G T tops es f2 /\
  (forall um f2', unpacked G um T tops es f2 f2' ->
    (forall i p s, paths !! i = Some p -> root_names p ++ s <> [] -> f2' !! (T ++ root_names p ++ s) = copy_of um (qFs w !! (loc w p ++ s))) /\
    (forall l, l ∉ tops -> (forall i p, paths !! i = Some p -> ~ T ++ root_names p `prefix_of` l /\ ~ l `prefix_of` T ++ root_names p) -> f2' !! l = f2 !! l)).
Proof.
  intros Rw (ess & -> & L1 & L2 & H) Cn Nu Dis Law HT HF. set (f := qFs w) in *. pose proof (proj1 Rw) as Sf. fold f in Sf.
  destruct (listings_tags f (loc w) paths 0%nat cuts ess L1 L2 H) as (ts & F & S & M). set (es := concat ess) in *.
  assert (forall i p, paths !! i = Some p -> bs ".." ∉ root_names p) as NU by (intros i p Hp; rewrite Forall_lookup in Nu; eapply Nu, Hp).
  (* the entries, one by one *)
  assert (forall x, x ∈ es -> exists i p s, (i, s) ∈ ts /\ paths !! i = Some p /\ entry G f (loc w p) p s x) as IN.
  { intros x Hx. apply elem_of_list_lookup in Hx as [j Hj]. destruct (Forall2_lookup_r _ _ _ _ _ F Hj) as ([i s] & Ht & _ & p & Hp & E). cbn [fst snd] in *. rewrite Nat.sub_0_r in Hp. exists i, p, s. split; [eapply elem_of_list_lookup_2, Ht|]. auto. }
  assert (forall i p s, paths !! i = Some p -> packable f (loc w p ++ s) -> (i, s) ∈ ts) as TS.
  { intros i p s Hp Pk. apply (M i s). destruct (lookup_lt_is_Some_2 cuts i) as [c Hc]; [rewrite L1; eapply lookup_lt_Some, Hp|]. exists p, c. split; [exact Hp|]. split; [exact Hc|]. split; [exact Pk|]. rewrite Forall_lookup in Cn. rewrite <- (Cn i c Hc). apply below_nil. }
  assert (forall i p s x, paths !! i = Some p -> entry G f (loc w p) p s x -> exists n, f !! (loc w p ++ s) = Some n /\ Forall fname s /\ dest T x = T ++ root_names p ++ s /\ tidy x /\
      ((exists m, 0 <= m < 512 /\ n = Dir m /\ folder x = true /\ fMode x = 2 ^ 31 + m) \/ exists m d, 0 <= m < 512 /\ n = Reg m d /\ folder x = false /\ fMode x = m /\ fData x = gzZip G d /\ root_names p ++ s <> [])) as EN.
  { intros i p s x Hp E. unfold entry in E. destruct (f !! (loc w p ++ s)) as [n|] eqn:En; [|destruct E]. exists n. split; [reflexivity|]. pose proof (sane_names _ _ _ Sf En) as Fn. apply Forall_app in Fn as [_ Fs]. split; [exact Fs|].
    assert (dest T x = T ++ root_names p ++ s) as D by (destruct n; [| |destruct E]; subst x; unfold dest; cbn [fPath]; apply named_go; [eapply NU, Hp|exact Fs|eapply NU, Hp|exact Fs]). split; [exact D|].
    destruct n as [m|m d|]; [| |destruct E].
    - assert (0 <= m < 512) as Rm by (destruct Sf as (_ & _ & B & _); eapply B, En). subst x. split; [apply named_tidy; [eapply NU, Hp|exact Fs|intros X; rewrite folder_dir in X by exact Rm; discriminate]|]. left. exists m. unfold folder. cbn [fMode]. rewrite folder_dir by exact Rm. auto.
    - assert (0 <= m < 512) as Rm by (destruct Sf as (_ & _ & _ & B); eapply B, En). assert (root_names p ++ s <> []) as Nn.
      { intros X. apply app_eq_nil in X as [X1 X2]. subst s. rewrite app_nil_r in En. assert (loc w p = base w p) as EL. { pose proof (norm_go (is_rooted p) (comps p) (base w p) (rooted_base w p) (comps_no_slash p)) as Q. unfold root_names in X1. rewrite head_rooted in X1. rewrite X1 in Q. unfold loc. rewrite <- Q. reflexivity. }
        rewrite EL in En. destruct (ready_base w p Rw) as [m0 D0]. unfold f in En. congruence. }
      subst x. split; [apply named_tidy; [eapply NU, Hp|exact Fs|auto]|]. right. exists m, d. unfold folder. cbn [fMode fData]. rewrite folder_reg by exact Rm. auto 8. }
  assert (forall i p s x, paths !! i = Some p -> entry G f (loc w p) p s x -> fst (needs T x) `prefix_of` T ++ root_names p ++ s /\ (folder x = true -> fst (needs T x) = T ++ root_names p ++ s) /\ (folder x = false -> exists c, T ++ root_names p ++ s = fst (needs T x) ++ [c])) as ND.
  { intros i p s x Hp E. destruct (EN i p s x Hp E) as (n & En & Fs & D & Ti & _). unfold needs. destruct (folder x) eqn:Fx; cbn [fst].
    - rewrite D. split; [reflexivity|]. split; [reflexivity|discriminate].
    - destruct (tidy_dest T x Ti Fx) as (c & Ec & _). rewrite D in Ec. split; [rewrite Ec; apply prefix_app_r; reflexivity|]. split; [discriminate|]. intros _. exists c. exact Ec. }
  assert (forall i j p q u v, paths !! i = Some p -> paths !! j = Some q -> root_names p ++ u `prefix_of` root_names q ++ v -> i = j /\ p = q /\ u `prefix_of` v) as SEP.
  { intros i j p q u v Hp Hq X. assert (i = j) as ->. { destruct (prefix_weak_total (root_names p) (root_names q) (root_names q ++ v)) as [Y|Y]; [etransitivity; [|exact X]; apply prefix_app_r; reflexivity|apply prefix_app_r; reflexivity|eapply Dis; eassumption|symmetry; eapply Dis; eassumption]. }
    split; [reflexivity|]. assert (p = q) as -> by congruence. split; [reflexivity|]. eapply prefix_app_inv, X. }
  split. { apply Forall_forall. intros x Hx. destruct (IN x Hx) as (i & p & s & _ & Hp & E). destruct (EN i p s x Hp E) as (_ & _ & _ & _ & Ti & _). exact Ti. }
  assert (forall x, x ∈ es -> folder x = false -> exists u, u <> [] /\ dest T x = T ++ u) as FU.
  { intros x Hx Fx. destruct (IN x Hx) as (i & p & s & _ & Hp & E). destruct (EN i p s x Hp E) as (n & En & Fs & D & _ & [(m & _ & _ & Fx' & _)|(m & d & _ & _ & _ & _ & _ & Nn)]); [congruence|]. eauto. }
  split.
  { intros x Hx. destruct (IN x Hx) as (i & p & s & _ & Hp & E). destruct (EN i p s x Hp E) as (n & En & Fs & D & Ti & K). destruct (ND i p s x Hp E) as (N1 & N2 & N3). split.
    - intros l Hl. assert (l `prefix_of` T ++ root_names p ++ s) as Hl' by (etransitivity; eassumption). split.
      + destruct (prefix_weak_total l T (T ++ root_names p ++ s)) as [X|X]; [exact Hl'|apply prefix_app_r; reflexivity|apply HT, X|]. destruct X as [u ->]. destruct (decide (u = [])) as [->|Nu']; [rewrite app_nil_r; apply HT; reflexivity|]. left. apply HF, Nu'.
      + intros y Hy Fy Ey. destruct (IN y Hy) as (j & q & v & _ & Hq & E'). destruct (EN j q v y Hq E') as (n' & En' & _ & D' & _ & [(m & _ & _ & Fy' & _)|(m & d & _ & -> & _ & _ & _ & Nn)]); [congruence|]. rewrite D' in Ey. subst l. destruct (folder x) eqn:Fx.
        * apply prefix_app_inv in Hl'. destruct (SEP _ _ _ _ _ _ Hq Hp Hl') as (-> & -> & Pv). destruct K as [(m' & _ & -> & _)|(m' & d' & _ & _ & X & _)]; [|discriminate]. assert (v = s) as ->; [|congruence]. destruct (sane_prefix f (loc w p ++ s) _ (loc w p ++ v) Sf En) as [X|[m0 X]]; [apply prefix_app, Pv|apply app_inv_head in X; exact X|congruence].
        * destruct (N3 eq_refl) as [c Ec]. assert (v <> s) as Nv. { intros ->. apply prefix_app_inv in Hl'. destruct (SEP _ _ _ _ _ _ Hq Hp Hl') as (-> & -> & _). rewrite Ec in Hl. apply prefix_length in Hl. rewrite app_length in Hl. cbn in Hl. lia. }
          apply prefix_app_inv in Hl'. destruct (SEP _ _ _ _ _ _ Hq Hp Hl') as (-> & -> & Pv). destruct (sane_prefix f (loc w p ++ s) _ (loc w p ++ v) Sf En) as [X|[m0 X]]; [apply prefix_app, Pv|apply app_inv_head in X; contradiction|congruence].
    - intros Fx. destruct (FU x Hx Fx) as (u & Nn & Eu). rewrite Eu. destruct (HF u Nn) as [X Y]. split; [left; exact X|]. split; [exact Y|]. destruct K as [(m & _ & _ & Fx' & _)|(m & d & _ & _ & _ & _ & Ed & _)]; [congruence|]. exists d. rewrite Ed. apply Law. }
  intros um f2' U. split.
  - intros i p s Hp Nn. rewrite (U (T ++ root_names p ++ s)). destruct (HF _ Nn) as [X Y]. rewrite X. set (l := T ++ root_names p ++ s) in *.
    assert (forall y, y ∈ es -> file_at T l y = true -> entry G f (loc w p) p s y) as FA.
    { intros y Hy [Fy Dy]%file_at_iff. destruct (IN y Hy) as (j & q & v & _ & Hq & E'). destruct (EN j q v y Hq E') as (n' & En' & _ & D' & _). rewrite D' in Dy. unfold l in Dy. apply app_inv_head in Dy. destruct (SEP i j p q s v Hp Hq) as (-> & -> & P1); [rewrite Dy; reflexivity|]. apply app_inv_head in Dy. subst v. exact E'. }
    assert (forall y, y ∈ es -> dir_at T l y = true -> exists v, (i, v) ∈ ts /\ entry G f (loc w p) p v y /\ s `prefix_of` v /\ (folder y = false -> s <> v)) as DA.
    { intros y Hy Dy. unfold dir_at in Dy. apply bool_decide_eq_true in Dy. destruct (IN y Hy) as (j & q & v & Ht & Hq & E'). destruct (ND j q v y Hq E') as (N1 & N2 & N3). assert (l `prefix_of` T ++ root_names q ++ v) as P1 by (etransitivity; eassumption). unfold l in P1. apply prefix_app_inv in P1. destruct (SEP _ _ _ _ _ _ Hp Hq P1) as (-> & -> & P2).
      exists v. split; [exact Ht|]. split; [exact E'|]. split; [exact P2|]. intros Fy ->. destruct (N3 Fy) as [c Ec]. apply prefix_length in Dy. unfold l in Dy. rewrite Ec, app_length in Dy. cbn in Dy. lia. }
    destruct (f !! (loc w p ++ s)) as [[m|m d|]|] eqn:En.
    + assert (packable f (loc w p ++ s)) as Pk by (unfold packable; rewrite En; exact I). rewrite (head_filter_none (file_at T l) es). 2: { intros y Hy Fy. pose proof (FA y Hy Fy) as E'. apply file_at_iff in Fy as [Fy _]. destruct (EN i p s y Hp E') as (n' & En' & _ & _ & _ & [(m' & _ & _ & Fy' & _)|(m' & d' & _ & -> & _)]); congruence. }
      cbn [head]. rewrite decide_False by exact Y. set (x := File (named p s) (2 ^ 31 + m) []). assert (entry G f (loc w p) p s x) as Ex by (unfold entry; rewrite En; reflexivity). destruct (EN i p s x Hp Ex) as (n' & En' & _ & _ & _ & K). destruct K as [(m' & Rm & -> & Fx & Mx)|(m' & d' & _ & -> & _)]; [|congruence].
      rewrite (head_filter_sorted tag_lt _ (dir_at T l) ts es (i, s) x S F (TS i p s Hp Pk)).
      * unfold needs. rewrite Fx. cbn [snd]. rewrite Mx. assert (m' = m) as -> by congruence. rewrite lowered_dir by exact Rm. reflexivity.
      * unfold dir_at. apply bool_decide_eq_true. destruct (ND i p s x Hp Ex) as (_ & N2 & _). rewrite (N2 Fx). reflexivity.
      * intros y (_ & q & Hq & Ey). cbn [fst snd] in *. rewrite Nat.sub_0_r in Hq. assert (q = p) as -> by congruence. unfold entry in Ey. rewrite En in Ey. exact Ey.
      * intros [j v] y Ht (_ & q & Hq & Ey) Py Lt. cbn [fst snd] in *. rewrite Nat.sub_0_r in Hq. assert (y ∈ es) as Hy. { apply elem_of_list_lookup in Ht as [k Hk]. destruct (Forall2_lookup_l _ _ _ _ _ F Hk) as (y' & Hy' & _ & q' & Hq' & Ey'). cbn [fst snd] in *. rewrite Nat.sub_0_r in Hq'. assert (q' = q) as -> by congruence. assert (y' = y) as ->. { unfold entry in Ey, Ey'. destruct (f !! (loc w q ++ v)) as [[?|? ?|]|]; [congruence..|destruct Ey|destruct Ey]. } eapply elem_of_list_lookup_2, Hy'. }
        unfold dir_at in Py. apply bool_decide_eq_true in Py. destruct (ND j q v y Hq Ey) as (N1 & _ & _). assert (l `prefix_of` T ++ root_names q ++ v) as P1 by (etransitivity; eassumption). unfold l in P1. apply prefix_app_inv in P1. destruct (SEP _ _ _ _ _ _ Hp Hq P1) as (-> & -> & P2). destruct Lt as [Lt|[_ Lt]]; [cbn in Lt; lia|]. cbn in Lt. exact (path_lt_prefix _ _ Lt P2).
    + assert (packable f (loc w p ++ s)) as Pk by (unfold packable; rewrite En; exact I). set (x := File (named p s) m (gzZip G d)). assert (entry G f (loc w p) p s x) as Ex by (unfold entry; rewrite En; reflexivity). assert (forall y, entry G f (loc w p) p s y -> y = x) as Ux by (intros y Ey; unfold entry in Ey; rewrite En in Ey; exact Ey).
      assert (x ∈ es) as Hx. { pose proof (TS i p s Hp Pk) as Ht. apply elem_of_list_lookup in Ht as [k Hk]. destruct (Forall2_lookup_l _ _ _ _ _ F Hk) as (y & Hy & _ & q & Hq & Ey). cbn [fst snd] in *. rewrite Nat.sub_0_r in Hq. assert (q = p) as -> by congruence. rewrite (Ux y Ey) in Hy. eapply elem_of_list_lookup_2, Hy. }
      destruct (EN i p s x Hp Ex) as (n' & En' & _ & Dx & _ & [(m' & _ & -> & _)|(m' & d' & Rm & E1 & Fx & Mx & Zx & _)]); [congruence|]. assert (file_at T l x = true) as Ax by (apply file_at_iff; split; [exact Fx|exact Dx]).
      assert (head (List.filter (file_at T l) es) = Some x) as ->. { destruct (List.filter (file_at T l) es) as [|y r] eqn:Ef. { assert (In x []) as [] by (rewrite <- Ef; apply filter_In; split; [apply elem_of_list_In, Hx|exact Ax]). } cbn. f_equal. assert (In y (y :: r)) as Iy by (left; reflexivity). rewrite <- Ef in Iy. apply filter_In in Iy as [I1 I2]. apply Ux, FA; [apply elem_of_list_In, I1|exact I2]. }
      rewrite (written_same T es l d); [cbn; reflexivity|eauto|]. intros y Hy Ay. rewrite (Ux y (FA y Hy Ay)). unfold contents. cbn [fData x]. rewrite Law. reflexivity.
    + rewrite (head_filter_none (file_at T l) es) by (intros y Hy Fy; pose proof (FA y Hy Fy) as E'; unfold entry in E'; rewrite En in E'; exact E'). cbn [head]. rewrite decide_False by exact Y. rewrite (head_filter_none (dir_at T l) es); [reflexivity|].
      intros y Hy Dy. destruct (DA y Hy Dy) as (v & Ht & Ev & P1 & Nv). destruct (EN i p v y Hp Ev) as (n' & En' & _). destruct (sane_prefix f (loc w p ++ v) _ (loc w p ++ s) Sf En') as [Z|[m0 Z]]; [apply prefix_app, P1| |congruence]. apply app_inv_head in Z. subst v. unfold entry in Ev. rewrite En in Ev. exact Ev.
    + rewrite (head_filter_none (file_at T l) es) by (intros y Hy Fy; pose proof (FA y Hy Fy) as E'; unfold entry in E'; rewrite En in E'; exact E'). cbn [head]. rewrite decide_False by exact Y. rewrite (head_filter_none (dir_at T l) es); [reflexivity|].
      intros y Hy Dy. destruct (DA y Hy Dy) as (v & Ht & Ev & P1 & Nv). destruct (EN i p v y Hp Ev) as (n' & En' & _). destruct (sane_prefix f (loc w p ++ v) _ (loc w p ++ s) Sf En') as [Z|[m0 Z]]; [apply prefix_app, P1| |congruence]. apply app_inv_head in Z. subst v. unfold entry in Ev. rewrite En in Ev. exact Ev.
  - intros l Nl Hl. rewrite (U l). assert (List.filter (file_at T l) es = []) as E1.
    { apply head_filter_none. intros y Hy [_ Dy]%file_at_iff. destruct (IN y Hy) as (j & q & v & _ & Hq & E'). destruct (EN j q v y Hq E') as (n' & _ & _ & D' & _). destruct (Hl j q Hq) as [X _]. apply X. rewrite <- Dy, D', app_assoc. apply prefix_app_r. reflexivity. }
    rewrite E1. unfold written. rewrite E1. cbn [map fold_left head]. rewrite decide_False by exact Nl. rewrite (head_filter_none (dir_at T l) es); [destruct (f2 !! l) as [[?|? ?|]|]; reflexivity|].
    intros y Hy Dy. unfold dir_at in Dy. apply bool_decide_eq_true in Dy. destruct (IN y Hy) as (j & q & v & _ & Hq & E'). destruct (ND j q v y Hq E') as (N1 & _). destruct (Hl j q Hq) as [X1 X2]. assert (l `prefix_of` (T ++ root_names q) ++ v) as P1 by (rewrite <- app_assoc; etransitivity; eassumption).
    destruct (prefix_weak_total l (T ++ root_names q) _ P1) as [Z|Z]; [apply prefix_app_r; reflexivity|exact (X2 Z)|exact (X1 Z)].
Qed.
End WithGzip.

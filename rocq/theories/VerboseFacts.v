(** Facts about what passcrypt -v prints. *)
From Verif Require Export SpecVerbose MainsFacts PasscryptClaims Verbose.
Local Open Scope Z_scope.

(** A world in which [o] has been printed. *)
Definition with_out (o : bytes) (w : pworld) : pworld := PW (qFs w) (qCwd w) (qUmask w) (qPw w) (qRng w) (qFate w) o.
Lemma with_out_same w : with_out (qOut w) w = w.
Proof. destruct w. reflexivity. Qed.
Lemma with_out_twice a b w : with_out a (with_out b w) = with_out a w.
Proof. reflexivity. Qed.
(** Prints nothing, and does the same whatever has been printed. *)
Definition mute {A} (f : pworld -> A * pworld) : Prop := forall o w, f (with_out o w) = (fst (f w), with_out o (snd (f w))).
Lemma mute_out {A} (f : pworld -> A * pworld) w : mute f -> qOut (snd (f w)) = qOut w.
Proof. intros M. specialize (M (qOut w) w). rewrite with_out_same in M. rewrite M. reflexivity. Qed.
Lemma fate_mute : mute fate.
Proof. intros o w. unfold fate. cbn. destruct (qFate w); reflexivity. Qed.
Lemma q_pass_mute : mute q_pass.
Proof. intros o w. unfold q_pass. cbn. destruct (qPw w); reflexivity. Qed.
Ltac fates o w := rewrite (fate_mute o w); let y := fresh "y" in let v := fresh "v" in destruct (fate w) as [y v]; cbn [fst snd]; destruct y.
Lemma stat_mute p : mute (fun w => sys_stat w p).
Proof. intros o w. unfold sys_stat. fates o w; reflexivity. Qed.
Lemma read_mute p : mute (sys_read p).
Proof. intros o w. unfold sys_read. fates o w; reflexivity. Qed.
Lemma names_mute p : mute (sys_names p).
Proof. intros o w. unfold sys_names. fates o w; reflexivity. Qed.
Lemma mkdirs_mute cs : forall l perm, mute (mkdirs cs l perm).
Proof.
  induction cs as [|c cs IH]; intros l perm o w; cbn [mkdirs]; [reflexivity|]. cbv zeta. change (qFs (with_out o w)) with (qFs w). destruct (qFs w !! step_to l c) as [[m|m d|]|]; try reflexivity; [apply IH|].
  fates o w; [reflexivity|]. rewrite <- IH. reflexivity.
Qed.
Lemma mkdir_all_mute p perm : mute (mkdir_all p perm).
Proof. intros o w. unfold mkdir_all. destruct (decide (p = [])); [reflexivity|]. change (start (with_out o w) p) with (start w p). apply mkdirs_mute. Qed.
Lemma open_mute t p perm : mute (sys_open t p perm).
Proof.
  intros o w. unfold sys_open. fates o w; [reflexivity|]. change (locate (with_out o v) p) with (locate v p). destruct (locate v p) as [l| |]; try reflexivity.
  change (qFs (with_out o v)) with (qFs v). destruct (qFs v !! l) as [[m|m d|]|]; reflexivity.
Qed.
Lemma write_mute l d : mute (sys_write l d).
Proof.
  intros o w. unfold sys_write. fates o w; cbv zeta; change (qFs (with_out o v)) with (qFs v); destruct (qFs v !! l) as [[m|m d'|]|]; reflexivity.
Qed.
Ltac muted H o w := rewrite (H o w); let r := fresh "r" in let v := fresh "v" in match goal with |- context [snd ?e] => destruct e as [r v] end; cbn [fst snd].

Section WithGzip.
Context (G : gzip).
Lemma pack_file_mute p : mute (pack_file G p).
Proof. intros o w. unfold pack_file. rewrite (read_mute p o w). destruct (sys_read p w) as [[[m d]|] v]; reflexivity. Qed.
Lemma unpack_file_mute x top : mute (unpack_file G x top).
Proof.
  intros o w. unfold unpack_file. destruct (gzRead G (fData x)) as [[d ok]|]; [|reflexivity]. rewrite (open_mute false _ _ o w). destruct (sys_open false (fjoin top (fPath x)) (fMode x) w) as [[l|] v]; cbn [fst snd]; [|reflexivity].
  rewrite (write_mute l d o v). destruct (sys_write l d v) as [b u]. reflexivity.
Qed.
(** One entry adds its line. *)
Lemma unpack_one_adds x top o w :
  unpack_one G x top (with_out o w) = (fst (unpack_one G x top w), with_out (o ++ dir_line x) (snd (unpack_one G x top w))) /\ qOut (snd (unpack_one G x top w)) = qOut w ++ dir_line x.
Proof.
  unfold unpack_one, dir_line. rewrite folder_is_dir. destruct (folder x).
  - change (q_print (with_out o w) (bs "Directory: " ++ fPath x ++ [x0a])) with (with_out (o ++ bs "Directory: " ++ fPath x ++ [x0a]) (q_print w (bs "Directory: " ++ fPath x ++ [x0a]))).
    split; [apply mkdir_all_mute|]. rewrite (mute_out _ _ (mkdir_all_mute _ _)). reflexivity.
  - rewrite !app_nil_r. cbv zeta. set (d := clean (fjoin top (fdir (fPath x)))). rewrite (stat_mute d o w). pose proof (mute_out _ w (stat_mute d)) as O. cbn beta in O. destruct (sys_stat w d) as [[n| |] v]; cbn [fst snd] in *.
    + split; [apply unpack_file_mute|]. rewrite (mute_out _ _ (unpack_file_mute _ _)). exact O.
    + rewrite (mkdir_all_mute d (dir_perm (fMode x)) o v). pose proof (mute_out _ v (mkdir_all_mute d (dir_perm (fMode x)))) as O2. destruct (mkdir_all d (dir_perm (fMode x)) v) as [b u]. cbn [fst snd] in *. destruct b; [|split; [reflexivity|cbn; congruence]].
      split; [apply unpack_file_mute|]. rewrite (mute_out _ _ (unpack_file_mute _ _)). congruence.
    + split; [apply unpack_file_mute|]. rewrite (mute_out _ _ (unpack_file_mute _ _)). exact O.
Qed.
Lemma tell_is s p w : tell true s p w = with_out (qOut w ++ s ++ p ++ [x0a]) w.
Proof. reflexivity. Qed.
Lemma join_lines (o u f d c : bytes) : ((o ++ u ++ f ++ [x0a]) ++ d) ++ c = o ++ (u ++ f ++ x0a :: d) ++ c.
Proof. change (x0a :: d) with ([x0a] ++ d). rewrite <- !app_assoc. reflexivity. Qed.
Lemma loop_says es top : forall o w,
  exists es0, es0 `prefix_of` es /\ (fst (unpack_loop G es top w) = true -> es0 = es) /\ (fst (unpack_loop G es top w) = false -> es0 <> []) /\
  qOut (snd (unpack_loop G es top w)) = qOut w ++ concat (map dir_line es0) /\
  loop_v G true es top (with_out o w) = (fst (unpack_loop G es top w), with_out (o ++ concat (map unpacking es0)) (snd (unpack_loop G es top w))).
Proof.
  induction es as [|x es IH]; intros o w; cbn [unpack_loop loop_v].
  { exists []. cbn. rewrite !app_nil_r. split; [apply prefix_nil|]. split; [reflexivity|]. split; [discriminate|]. split; reflexivity. }
  rewrite tell_is. change (qOut (with_out o w)) with o. rewrite with_out_twice. destruct (unpack_one_adds x top (o ++ bs "Unpack " ++ fPath x ++ [x0a]) w) as [-> O]. destruct (unpack_one G x top w) as [b v]. cbn [fst snd] in *. destruct b.
  - destruct (IH ((o ++ bs "Unpack " ++ fPath x ++ [x0a]) ++ dir_line x) v) as (es0 & P & T & _ & Q & ->). exists (x :: es0). split; [apply prefix_cons, P|]. split; [intros H; f_equal; apply T, H|]. split; [discriminate|]. split.
    + rewrite Q, O. cbn [map concat]. rewrite <- app_assoc. reflexivity.
    + f_equal. f_equal. unfold unpacking at 2. cbn [map concat]. unfold unpacking at 1. apply join_lines.
  - exists [x]. cbn [fst snd map concat]. rewrite !app_nil_r. split; [exists es; reflexivity|]. split; [discriminate|]. split; [discriminate|]. split; [exact O|]. f_equal. f_equal. unfold unpacking. change (x0a :: dir_line x) with ([x0a] ++ dir_line x). rewrite <- !app_assoc. reflexivity.
Qed.
Lemma loop_quiet es top : forall w, loop_v G false es top w = unpack_loop G es top w.
Proof. induction es as [|x es IH]; intros w; cbn [unpack_loop loop_v tell]; [reflexivity|]. destruct (unpack_one G x top w) as [[] v]; [apply IH|reflexivity]. Qed.

(** *** Packing *)
Definition names_v (v : bool) (fuel : nat) (p : bytes) := fix go (names : list bytes) (w : pworld) : option (list file) * pworld :=
  match names with
  | [] => (Some [], w)
  | c :: names =>
      match sys_stat w (fjoin p c) with
      | (Found n, w) =>
          match walk_v G v fuel (fjoin p c) n w with
          | (None, w) => (None, w)
          | (Some a, w) => match go names w with (Some b, w) => (Some (a ++ b), w) | (None, w) => (None, w) end
          end
      | (_, w) => (None, w)
      end
  end.
Lemma walk_v_S v fuel p n w : walk_v G v (S fuel) p n w =
  match n with
  | Other => (Some [], w)
  | Reg _ _ => match pack_file G p (tell v (bs "Pack file ") p w) with (Some x, w) => (Some [x], w) | (None, w) => (None, w) end
  | Dir m =>
      let x := File (clean p) (ModeDir + m) [] in
      match sys_names p (tell v (bs "Pack directory ") p w) with
      | (None, w) => (Some [x], w)
      | (Some names, w) => match names_v v fuel p names w with (Some l, w) => (Some (x :: l), w) | (None, w) => (None, w) end
      end
  end.
Proof. destruct n; reflexivity. Qed.
Lemma walk_quiet fuel : forall p n w, walk_v G false fuel p n w = pack_walk G fuel p n w.
Proof. reflexivity. Qed.
Lemma roots_quiet paths : forall w, roots_v G false paths w = pack_roots G paths w.
Proof. reflexivity. Qed.

(** What is said, by the outcome [r]: [t] for the entries, else some lines. *)
Definition said (r : option (list file)) (t : list file -> bytes) (o : bytes) : Prop :=
  match r with Some es => o = t es | None => exists ls, Forall packing_line ls /\ o = concat ls end.
Definition lines_of (es : list file) : bytes := concat (map (fun x => packing x (fPath x)) es).
Lemma lines_are es : exists ls, Forall packing_line ls /\ lines_of es = concat ls.
Proof. exists (map (fun x => packing x (fPath x)) es). split; [|reflexivity]. apply Forall_forall. intros l (x & -> & _)%elem_of_list_fmap. exists (fPath x). unfold packing. destruct (folder x); auto. Qed.
Lemma all_lines p es : exists ls, Forall packing_line ls /\ packing_all p es = concat ls.
Proof.
  destruct es as [|x es]; [exists []; split; [constructor|reflexivity]|]. destruct (lines_are es) as (ls & F & E). exists (packing x p :: ls). split; [constructor; [exists p; unfold packing; destruct (folder x); auto|exact F]|]. cbn. rewrite <- E. reflexivity.
Qed.
Lemma mute_fst {A} (f : pworld -> A * pworld) o w : mute f -> f (with_out o w) = (fst (f w), with_out o (snd (f w))).
Proof. intros M. apply M. Qed.
Lemma folder_dir p m z : 0 <= m < 512 -> folder (File p (ModeDir + m) z) = true.
Proof.
  intros H. unfold folder, ModeDir. cbn [fMode]. rewrite Z.testbit_true by lia. assert ((2 ^ 31 + m) / 2 ^ 31 = 1) as ->; [|reflexivity]. symmetry. apply (Z.div_unique _ _ 1 m); lia.
Qed.
Lemma folder_reg p m z : 0 <= m < 512 -> folder (File p m z) = false.
Proof.
  intros H. unfold folder. cbn [fMode]. destruct (Z.testbit m 31) eqn:E; [|reflexivity]. apply Z.testbit_true in E; [|lia]. rewrite Z.div_small in E by lia. discriminate E.
Qed.

Definition modes (f : tree) : Prop := (forall l m, f !! l = Some (Dir m) -> 0 <= m < 512) /\ (forall l m d, f !! l = Some (Reg m d) -> 0 <= m < 512).
Definition node_ok (n : node) : Prop := match n with Dir m => 0 <= m < 512 | _ => True end.
Lemma stat_fs w p : qFs (snd (sys_stat w p)) = qFs w /\ (modes (qFs w) -> forall n, fst (sys_stat w p) = Found n -> node_ok n).
Proof.
  unfold sys_stat, fate. destruct (qFate w) as [|[k|] l]; cbn.
  - split; [reflexivity|]. intros [M _] n. destruct (locate w p) as [l| |]; try discriminate. destruct (qFs w !! l) eqn:E; [|discriminate]. intros [= <-]. destruct n0; cbn; try exact I. eapply M, E.
  - split; [reflexivity|discriminate].
  - split; [reflexivity|]. intros [M _] n. destruct (locate _ p) as [l'| |]; try discriminate. destruct (qFs w !! l') eqn:E; [|discriminate]. intros [= <-]. destruct n0; cbn; try exact I. eapply M, E.
Qed.
Lemma names_fs p w : qFs (snd (sys_names p w)) = qFs w.
Proof. unfold sys_names, fate. destruct (qFate w) as [|[k|] l]; reflexivity. Qed.
Lemma pack_file_fs p w : qFs (snd (pack_file G p w)) = qFs w /\ (modes (qFs w) -> forall x, fst (pack_file G p w) = Some x -> fPath x = clean p /\ folder x = false).
Proof.
  unfold pack_file, sys_read, fate. destruct (qFate w) as [|[k|] l]; cbn.
  - destruct (locate w p) as [l| |]; cbn; try (split; [reflexivity|discriminate]). destruct (qFs w !! l) as [[m|m d|]|] eqn:E; cbn; (split; [reflexivity|]); try discriminate. intros [_ M] x [= <-]. split; [reflexivity|]. eapply folder_reg, M, E.
  - split; [reflexivity|discriminate].
  - destruct (locate _ p) as [l'| |]; cbn; try (split; [reflexivity|discriminate]). destruct (qFs w !! l') as [[m|m d|]|] eqn:E; cbn; (split; [reflexivity|]); try discriminate. intros [_ M] x [= <-]. split; [reflexivity|]. eapply folder_reg, M, E.
Qed.
Lemma fjoin_clean p c : p <> [] -> clean (fjoin p c) = fjoin p c.
Proof. intros N. unfold fjoin. destruct (decide (p = [])); [contradiction|]. apply clean_idem. Qed.
Lemma fjoin_nonnil p c : p <> [] -> fjoin p c <> [].
Proof. intros N. unfold fjoin. destruct (decide (p = [])); [contradiction|]. apply clean_nonnil. Qed.
Lemma lines_app a b : lines_of (a ++ b) = lines_of a ++ lines_of b.
Proof. unfold lines_of. rewrite map_app, concat_app. reflexivity. Qed.

Lemma walk_says fuel : forall p n o w, p <> [] -> modes (qFs w) -> node_ok n ->
  let r := pack_walk G fuel p n w in
  exists t, said (fst r) (packing_all p) t /\ (forall x es, fst r = Some (x :: es) -> fPath x = clean p) /\ qFs (snd r) = qFs w /\
    walk_v G true fuel p n (with_out o w) = (fst r, with_out (o ++ t) (snd r)).
Proof.
  induction fuel as [|fuel IH]; intros p n o w N M Hn; cbv zeta.
  { exists []. cbn. rewrite app_nil_r. split; [exists []; split; [constructor|reflexivity]|]. split; [discriminate|]. split; reflexivity. }
  rewrite walk_v_S, pack_walk_S, !tell_is. change (qOut (with_out o w)) with o. rewrite !with_out_twice. destruct n as [m|m d|].
  - cbv zeta. rewrite (names_mute p _ w). pose proof (names_fs p w) as F. destruct (sys_names p w) as [[names|] v]; cbn [fst snd] in *.
    2: { exists (bs "Pack directory " ++ p ++ [x0a]). split; [cbn [said packing_all map concat]; unfold packing; rewrite folder_dir by exact Hn; rewrite app_nil_r; reflexivity|]. split; [intros x es [= <- _]; reflexivity|]. split; [exact F|reflexivity]. }
    assert (forall names o v, modes (qFs v) -> exists t, said (fst (pack_names G fuel p names v)) lines_of t /\ qFs (snd (pack_names G fuel p names v)) = qFs v /\
      names_v true fuel p names (with_out o v) = (fst (pack_names G fuel p names v), with_out (o ++ t) (snd (pack_names G fuel p names v)))) as Names.
    { clear names v F. induction names as [|c names IHn]; intros o' v Mv; cbn [names_v pack_names].
      { exists []. cbn. rewrite app_nil_r. split; [reflexivity|]. split; reflexivity. }
      fold (names_v true fuel p). fold (pack_names G fuel p). rewrite (stat_mute (fjoin p c) o' v). destruct (stat_fs v (fjoin p c)) as [Fs Ok]. specialize (Ok Mv). destruct (sys_stat v (fjoin p c)) as [s u]. cbn [fst snd] in *.
      destruct s as [n| |]; try (exists []; cbn; rewrite app_nil_r; split; [exists []; split; [constructor|reflexivity]|]; split; [exact Fs|reflexivity]).
      assert (modes (qFs u)) as Mu by (rewrite Fs; exact Mv). destruct (IH (fjoin p c) n o' u (fjoin_nonnil p c N) Mu (Ok n eq_refl)) as (t & S & Hd & Fw & ->). destruct (pack_walk G fuel (fjoin p c) n u) as [[a|] u2]; cbn [fst snd] in *.
      2: { exists t. split; [exact S|]. split; [congruence|reflexivity]. }
      assert (t = lines_of a) as ->. { rewrite S. destruct a as [|x a]; [reflexivity|]. cbn [packing_all]. unfold lines_of. cbn [map concat]. rewrite (Hd x a eq_refl), fjoin_clean by exact N. reflexivity. }
      assert (modes (qFs u2)) as Mu2 by (rewrite Fw; exact Mu). destruct (IHn (o' ++ lines_of a) u2 Mu2) as (t2 & S2 & F2 & ->). destruct (pack_names G fuel p names u2) as [[b|] u3]; cbn [fst snd] in *.
      - exists (lines_of (a ++ b)). split; [reflexivity|]. split; [congruence|]. rewrite S2, lines_app, app_assoc. reflexivity.
      - exists (lines_of a ++ t2). split; [|split; [congruence|rewrite app_assoc; reflexivity]]. destruct S2 as (ls & Fl & ->), (lines_are a) as (la & Fa & ->). exists (la ++ ls). split; [apply Forall_app; auto|rewrite concat_app; reflexivity]. }
    assert (modes (qFs v)) as Mv by (rewrite F; exact M). destruct (Names names (o ++ bs "Pack directory " ++ p ++ [x0a]) v Mv) as (t & S & Fn & ->). destruct (pack_names G fuel p names v) as [[l|] u]; cbn [fst snd] in *.
    + exists ((bs "Pack directory " ++ p ++ [x0a]) ++ t). split; [rewrite S; cbn [said packing_all]; unfold packing at 1; rewrite folder_dir by exact Hn; reflexivity|]. split; [intros x es [= <- _]; reflexivity|]. split; [congruence|]. rewrite <- (app_assoc o). reflexivity.
    + exists ((bs "Pack directory " ++ p ++ [x0a]) ++ t). split; [|split; [discriminate|split; [congruence|rewrite <- (app_assoc o); reflexivity]]]. destruct S as (ls & Fl & ->). exists ((bs "Pack directory " ++ p ++ [x0a]) :: ls). split; [constructor; [exists p; left; reflexivity|exact Fl]|reflexivity].
  - rewrite (pack_file_mute p _ w). destruct (pack_file_fs p w) as [F P]. specialize (P M). destruct (pack_file G p w) as [[x|] v]; cbn [fst snd] in *.
    + destruct (P x eq_refl) as [Pc Pf]. exists (bs "Pack file " ++ p ++ [x0a]). split; [cbn [said packing_all map concat]; unfold packing; rewrite Pf, app_nil_r; reflexivity|]. split; [intros y es [= <- _]; exact Pc|]. split; [exact F|reflexivity].
    + exists (bs "Pack file " ++ p ++ [x0a]). split; [exists [bs "Pack file " ++ p ++ [x0a]]; split; [constructor; [exists p; right; reflexivity|constructor]|cbn; rewrite app_nil_r; reflexivity]|]. split; [discriminate|]. split; [exact F|reflexivity].
  - exists []. cbn. rewrite app_nil_r. split; [reflexivity|]. split; [discriminate|]. split; reflexivity.
Qed.
Lemma ready_modes w : ready w -> modes (qFs w).
Proof. intros ((_ & _ & A & B) & _). split; assumption. Qed.
Lemma stat_found w p n u : ready w -> sys_stat w p = (Found n, u) -> p <> [] /\ locate u p = At (loc u p) /\ qFs u !! loc u p = Some n.
Proof.
  intros Rw H. unfold sys_stat in H. destruct (fate w) as [x w1] eqn:EF. destruct (fate_calm _ _ _ EF) as (K1 & Ef & _). pose proof (ready_calm _ _ K1 Ef Rw) as R1. destruct x as [j|]; [discriminate|].
  destruct (locate w1 p) as [l| |] eqn:EL; try discriminate. destruct (qFs w1 !! l) as [n'|] eqn:En; [|discriminate]. injection H as <- <-. destruct (proj1 (locate_reaches w1 p n' R1)) as [Re E1]; [eauto|].
  assert (l = loc w1 p) as ->. { destruct Re as (N & _). rewrite locate_is in EL by exact N. apply resolve_iff in EL as [-> _]. reflexivity. } split; [apply Re|]. split; [exact EL|exact En].
Qed.
Lemma stat_calm w p r u : sys_stat w p = (r, u) -> calm w u /\ qFs u = qFs w.
Proof. unfold sys_stat. destruct (fate w) as [[k|] w1] eqn:EF; intros [= <- <-]; apply fate_calm in EF as (K & E & _); auto. Qed.
(** All the paths: the entries of each, and their lines. *)
Lemma roots_say paths : forall o w, ready w ->
  let r := pack_roots G paths w in
  exists t, said (fst r) (fun es => t) t /\
    (forall es, fst r = Some es -> exists ess, length ess = length paths /\ t = concat (zip_with packing_all paths ess) /\
       forall i p e, paths !! i = Some p -> ess !! i = Some e -> exists cut, listing G (qFs w) (loc w p) p cut e /\ (qFate w = [] -> cut = [])) /\
    roots_v G true paths (with_out o w) = (fst r, with_out (o ++ t) (snd r)).
Proof.
  induction paths as [|p paths IH]; intros o w Rw; cbv zeta; cbn [roots_v pack_roots].
  { exists []. cbn. rewrite app_nil_r. split; [reflexivity|]. split; [|reflexivity]. intros es [= <-]. exists []. split; [reflexivity|]. split; [reflexivity|]. intros i p e Hp. rewrite lookup_nil in Hp. discriminate. }
  rewrite (stat_mute p o w). destruct (sys_stat w p) as [s u] eqn:ES. destruct (stat_calm _ _ _ _ ES) as [K1 E1]. cbn [fst snd] in *.
  destruct s as [n| |]; try (exists []; cbn; rewrite app_nil_r; split; [exists []; split; [constructor|reflexivity]|]; split; [discriminate|reflexivity]).
  destruct (stat_found _ _ _ _ Rw ES) as (N & EL & En). pose proof (ready_calm _ _ K1 E1 Rw) as R1. change (qFs (with_out o u)) with (qFs u). assert (node_ok n) as On by (destruct n; cbn; [eapply (proj1 (ready_modes u R1)), En|exact I..]).
  destruct (walk_says (S (size (qFs u))) p n o u N (ready_modes u R1) On) as (t & S & _ & _ & ->). destruct (pack_walk G (Datatypes.S (size (qFs u))) p n u) as [r2 u2] eqn:EW. destruct (pack_walk_spec G _ _ _ _ _ _ R1 N EL En EW) as (K2 & E2 & L2). destruct r2 as [a|]; cbn [fst snd] in *.
  2: { exists t. split; [exact S|]. split; [discriminate|reflexivity]. }
  pose proof (calm_trans _ _ _ K1 K2) as K12. assert (qFs u2 = qFs w) as E12 by congruence. pose proof (ready_calm _ _ K12 E12 Rw) as R2. destruct (IH (o ++ t) u2 R2) as (t2 & S2 & T2 & ->). exists (t ++ t2). destruct (pack_roots G paths u2) as [[b|] u3]; cbn [fst snd] in *.
  - split; [reflexivity|]. split; [|rewrite app_assoc; reflexivity]. intros es [= <-]. destruct (T2 b eq_refl) as (ess & Len & -> & Ls). exists (a :: ess). split; [cbn; congruence|]. split; [cbn [zip_with concat]; rewrite S; reflexivity|].
    intros [|i] q e Hq He; cbn in Hq, He.
    + injection Hq as <-. injection He as <-. destruct (L2 a eq_refl) as (cut & La & Ca). rewrite (calm_loc w u p K1), E1 in La. exists cut. split; [exact La|]. intros HF. apply Ca, K1, HF.
    + destruct (Ls i q e Hq He) as (cut & La & Ca). rewrite E12, (calm_loc w u2 q K12) in La. exists cut. split; [exact La|]. intros HF. apply Ca, K12, HF.
  - split; [|split; [discriminate|rewrite app_assoc; reflexivity]]. destruct S2 as (ls & Fl & ->), (all_lines p a) as (la & Fa & E). rewrite S, E. exists (la ++ ls). split; [apply Forall_app; auto|rewrite concat_app; reflexivity].
Qed.
(** Where nothing is assumed, what is done is the same. *)
Lemma walk_same fuel : forall p n o w, exists t, walk_v G true fuel p n (with_out o w) = (fst (pack_walk G fuel p n w), with_out (o ++ t) (snd (pack_walk G fuel p n w))).
Proof.
  induction fuel as [|fuel IH]; intros p n o w. { exists []. cbn. rewrite app_nil_r. reflexivity. }
  rewrite walk_v_S, pack_walk_S, !tell_is. change (qOut (with_out o w)) with o. rewrite !with_out_twice. destruct n as [m|m d|].
  - cbv zeta. rewrite (names_mute p _ w). destruct (sys_names p w) as [[names|] v]; cbn [fst snd]; [|eexists; reflexivity].
    assert (forall names o v, exists t, names_v true fuel p names (with_out o v) = (fst (pack_names G fuel p names v), with_out (o ++ t) (snd (pack_names G fuel p names v)))) as Names.
    { clear names v. induction names as [|c names IHn]; intros o' v; cbn [names_v pack_names]. { exists []. cbn. rewrite app_nil_r. reflexivity. }
      fold (names_v true fuel p). fold (pack_names G fuel p). rewrite (stat_mute (fjoin p c) o' v). destruct (sys_stat v (fjoin p c)) as [s u]. cbn [fst snd].
      destruct s as [n| |]; try (exists []; cbn; rewrite app_nil_r; reflexivity). destruct (IH (fjoin p c) n o' u) as (t & ->). destruct (pack_walk G fuel (fjoin p c) n u) as [[a|] u2]; cbn [fst snd]; [|exists t; reflexivity].
      destruct (IHn (o' ++ t) u2) as (t2 & ->). exists (t ++ t2). rewrite app_assoc. destruct (pack_names G fuel p names u2) as [[b|] u3]; reflexivity. }
    destruct (Names names (o ++ bs "Pack directory " ++ p ++ [x0a]) v) as (t & ->). exists ((bs "Pack directory " ++ p ++ [x0a]) ++ t). rewrite <- (app_assoc o). destruct (pack_names G fuel p names v) as [[l|] u]; reflexivity.
  - rewrite (pack_file_mute p _ w). eexists. destruct (pack_file G p w) as [[x|] v]; reflexivity.
  - exists []. cbn. rewrite app_nil_r. reflexivity.
Qed.
Lemma roots_same paths : forall o w, exists t, roots_v G true paths (with_out o w) = (fst (pack_roots G paths w), with_out (o ++ t) (snd (pack_roots G paths w))).
Proof.
  induction paths as [|p paths IH]; intros o w; cbn [roots_v pack_roots]. { exists []. cbn. rewrite app_nil_r. reflexivity. }
  rewrite (stat_mute p o w). destruct (sys_stat w p) as [s u]. cbn [fst snd]. destruct s as [n| |]; try (exists []; cbn; rewrite app_nil_r; reflexivity).
  change (qFs (with_out o u)) with (qFs u). destruct (walk_same (S (size (qFs u))) p n o u) as (t & ->). destruct (pack_walk G _ p n u) as [[a|] u2]; cbn [fst snd]; [|exists t; reflexivity].
  destruct (IH (o ++ t) u2) as (t2 & ->). exists (t ++ t2). rewrite app_assoc. destruct (pack_roots G paths u2) as [[b|] u3]; reflexivity.
Qed.

(** *** The command *)
Context `{C : Crypto}.
Lemma pack_quiet paths armour out w : pcv_pack G false paths armour out w = pc_pack G paths armour out w.
Proof. reflexivity. Qed.
Lemma unpack_quiet arch top w : pcv_unpack G false arch top w = pc_unpack G arch top w.
Proof. unfold pcv_unpack, pc_unpack. destruct (open_archive arch w) as [[s|] v]; [|reflexivity]. unfold unpack_v, unpack_files. destruct (parse_files s); [|reflexivity]. destruct (sys_stat v top) as [[n| |] u]; try apply loop_quiet. destruct (mkdir_all top 493 u) as [[] u2]; [apply loop_quiet|reflexivity]. Qed.
Lemma pack_out_mute out (perm : Z) d : mute (fun w => match sys_open true out perm w with (None, w) => (false, w) | (Some l, w) => sys_write l d w end).
Proof. intros o w. cbn beta. rewrite (open_mute true out perm o w). destruct (sys_open true out perm w) as [[l|] v]; cbn [fst snd]; [|reflexivity]. apply write_mute. Qed.
(** What is said when packing: nothing before the paths are walked, nothing after. *)
Lemma pack_says (Q : option (list file) -> bytes -> Prop) paths armour out w :
  (forall r t, Q r t -> Q None t) -> Q None [] ->
  (forall pws g, exists t, let w2 := PW (qFs w) (qCwd w) (qUmask w) pws g (qFate w) (qOut w) in Q (fst (pack_roots G paths w2)) t /\
     roots_v G true paths w2 = (fst (pack_roots G paths w2), with_out (qOut w ++ t) (snd (pack_roots G paths w2)))) ->
  let r := pc_pack G paths armour out w in
  exists t, pcv_pack G true paths armour out w = (fst r, with_out (qOut w ++ t) (snd r)) /\ Q None t /\ (fst r = true -> paths <> [] -> exists es, Q (Some es) t).
Proof.
  intros Qn Q0 H. cbv zeta. unfold pcv_pack, pc_pack. destruct (decide (paths = [])) as [E|E]. { exists []. cbn. rewrite app_nil_r, with_out_same. split; [reflexivity|]. split; [exact Q0|contradiction]. }
  assert (exists x pws, q_pass w = (x, PW (qFs w) (qCwd w) (qUmask w) pws (qRng w) (qFate w) (qOut w))) as (x & pws & ->). { unfold q_pass. destruct w as [a b c l e f g]. cbn. destruct l; cbn; eauto. }
  destruct x as [pass|]. 2: { exists []. cbn. rewrite app_nil_r. split; [reflexivity|]. split; [exact Q0|discriminate]. }
  cbn [qRng]. destruct (rand 32 (qRng w)) as [[salt|] g]; cbv zeta; unfold set_qrng at 1; cbn [qFs qCwd qUmask qPw qFate qOut].
  2: { exists []. cbn. rewrite app_nil_r. split; [reflexivity|]. split; [exact Q0|discriminate]. }
  destruct (derive_key pass salt) as [key|]. 2: { exists []. cbn. rewrite app_nil_r. split; [reflexivity|]. split; [exact Q0|discriminate]. }
  destruct (H pws g) as (t & Ht & Et). cbv zeta in Ht, Et. unfold set_qrng at 1. cbn [qFs qCwd qUmask qPw qFate qOut]. rewrite Et. clear Et H. exists t. destruct (pack_roots G paths _) as [[l|] v]; cbn [fst snd] in *. 2: { split; [reflexivity|]. split; [eapply Qn, Ht|discriminate]. }
  destruct (der_files l) as [s|]. 2: { cbn. split; [reflexivity|]. split; [eapply Qn, Ht|discriminate]. } change (qRng (with_out (qOut w ++ t) v)) with (qRng v). destruct (encrypt (Some key) s (qRng v)) as [[[e|] g2]|]; [|cbn; split; [reflexivity|]; split; [eapply Qn, Ht|discriminate]..].
  split; [|split; [eapply Qn, Ht|eauto]]. apply (pack_out_mute out 420 _ (qOut w ++ t) (set_qrng v g2)).
Qed.
Lemma open_mute_arch arch : mute (open_archive arch).
Proof.
  intros o w. unfold open_archive. rewrite (read_mute arch o w). destruct (sys_read arch w) as [[[m d]|] v]; cbn [fst snd]; [|reflexivity]. assert (exists q, match pem_decode d with Some (ty, b) => if decide (ty = archive_type) then Some b else None | None => Some d end = q) as [q ->] by eauto. destruct q as [d'|]; [|reflexivity]. destruct (decide (length d' <= 32)%nat); [reflexivity|].
  rewrite (q_pass_mute o v). destruct (q_pass v) as [[pass|] u]; cbn [fst snd]; [|reflexivity]. destruct (derive_key pass (take 32 d')) as [key|]; [|reflexivity]. destruct (decrypt (Some key) (drop 32 d')); reflexivity.
Qed.
(** What is said when unpacking: about the entries up to the one that fails. *)
Lemma unpack_says arch top w :
  let r := pc_unpack G arch top w in
  exists t, pcv_unpack G true arch top w = (fst r, with_out (qOut w ++ t) (snd r)) /\
    (t = [] /\ fst r = false /\ qOut (snd r) = qOut w \/
     exists s es es0 v, open_archive arch w = (Some s, v) /\ parse_files s = Some es /\ es0 `prefix_of` es /\ (fst r = true -> es0 = es) /\ (fst r = false -> es0 <> []) /\
       qOut (snd r) = qOut w ++ concat (map dir_line es0) /\ t = concat (map unpacking es0)).
Proof.
  cbv zeta. unfold pcv_unpack, pc_unpack. pose proof (mute_out _ w (open_mute_arch arch)) as O. destruct (open_archive arch w) as [[s|] v]; cbn [fst snd] in *.
  2: { exists []. rewrite app_nil_r, <- O, with_out_same. split; [reflexivity|]. left. auto. }
  unfold unpack_v, unpack_files. destruct (parse_files s) as [es|] eqn:EP; cbn [fst snd]. 2: { exists []. rewrite app_nil_r, <- O, with_out_same. split; [reflexivity|]. left. auto. }
  assert (exists b u, (match sys_stat v top with (Missing, w) => mkdir_all top 493 w | (_, w) => (true, w) end) = (b, u) /\ qOut u = qOut w) as (b & u & -> & Ou).
  { pose proof (mute_out _ v (stat_mute top)) as O1. cbn beta in O1. destruct (sys_stat v top) as [[n| |] v1]; cbn [snd] in O1; [eexists _, _; split; [reflexivity|congruence]| |eexists _, _; split; [reflexivity|congruence]].
    pose proof (mute_out _ v1 (mkdir_all_mute top 493)) as O2. destruct (mkdir_all top 493 v1) as [b v2]. exists b, v2. split; [reflexivity|]. cbn [snd] in O2. congruence. }
  destruct b; cbn [fst snd]. 2: { exists []. rewrite app_nil_r, <- Ou, with_out_same. split; [reflexivity|]. left. auto. }
  destruct (loop_says es top (qOut w) u) as (es0 & P & T & F & Q & L). rewrite <- Ou, with_out_same in L. exists (concat (map unpacking es0)). rewrite L, Ou. split; [reflexivity|]. right. exists s, es, es0, v. rewrite <- Ou. auto 10.
Qed.
Lemma with_out_differs o w : same_but_output (with_out o w) w.
Proof. repeat split. Qed.
End WithGzip.

Lemma zip_lines paths : forall ess, exists ls, Forall packing_line ls /\ concat (zip_with packing_all paths ess) = concat ls.
Proof.
  induction paths as [|p paths IH]; intros [|e ess]; try (exists []; split; [constructor|reflexivity]). destruct (IH ess) as (ls & F & E), (all_lines p e) as (la & Fa & Ea). exists (la ++ ls). split; [apply Forall_app; auto|].
  cbn [zip_with concat]. rewrite Ea, E, concat_app. reflexivity.
Qed.

Section Claims.
Context `{C : Crypto}.
Lemma holds_fun {L : CryptoLaws} w arch es es' : holds_entries w arch es -> holds_entries w arch es' -> es' = es.
Proof.
  intros (_ & m & d & c & pass & pws & s & A & B & D & E & F) (_ & m' & d' & c' & pass' & pws' & s' & A' & B' & D' & E' & F'). assert (d' = d) as -> by congruence. assert (pass' = pass) as -> by congruence.
  rewrite (enclosed_fun d c c' B B') in E. rewrite (genuine_fun pass c' s s' E E') in F'. congruence.
Qed.
Lemma pack_claim (G : gzip) paths armour out w b w' : ready w -> pcv_pack G true paths armour out w = (b, w') ->
  exists w0, pc_pack G paths armour out w = (b, w0) /\ same_but_output w' w0 /\
    (exists ls, Forall packing_line ls /\ qOut w' = qOut w ++ concat ls) /\
    (b = true -> exists ess, length ess = length paths /\ qOut w' = qOut w ++ concat (zip_with packing_all paths ess) /\
       forall i p es, paths !! i = Some p -> ess !! i = Some es -> exists cut, listing G (qFs w) (loc w p) p cut es /\ (qFate w = [] -> cut = [])).
Proof.
  intros Rw H.
  pose (Q := fun (r : option (list file)) (t : bytes) => (exists ls, Forall packing_line ls /\ t = concat ls) /\
    (r <> None -> exists ess, length ess = length paths /\ t = concat (zip_with packing_all paths ess) /\
       forall i p es, paths !! i = Some p -> ess !! i = Some es -> exists cut, listing G (qFs w) (loc w p) p cut es /\ (qFate w = [] -> cut = []))).
  destruct (pack_says G Q paths armour out w) as (t & E & Qn & Qs).
  - intros r t [A _]. split; [exact A|congruence].
  - split; [exists []; split; [constructor|reflexivity]|congruence].
  - intros pws g. set (w2 := PW (qFs w) (qCwd w) (qUmask w) pws g (qFate w) (qOut w)). assert (ready w2) as R2 by exact Rw. destruct (roots_say G paths (qOut w) w2 R2) as (t & S & T & E). exists t. cbv zeta. split; [|exact E].
    destruct (fst (pack_roots G paths w2)) as [es|]; cbn [said] in S; split.
    + destruct (T es eq_refl) as (ess & Len & -> & _). apply zip_lines.
    + intros _. destruct (T es eq_refl) as (ess & Len & Et & Ls). exists ess. split; [exact Len|]. split; [exact Et|]. exact Ls.
    + exact S.
    + congruence.
  - rewrite E in H. destruct (pc_pack G paths armour out w) as [b0 w0]. cbn [fst snd] in *. injection H as <- <-. exists w0. split; [reflexivity|]. split; [apply with_out_differs|]. cbn [qOut with_out]. split.
    + destruct Qn as [(ls & F & ->) _]. eauto.
    + intros ->. destruct (decide (paths = [])) as [->|N]; [|destruct (Qs eq_refl N) as (es & _ & Qe); destruct Qe as (ess & ? & -> & ?); [discriminate|eauto]].
      exists []. split; [reflexivity|]. split; [|intros i p es Hp; rewrite lookup_nil in Hp; discriminate]. cbn in E. injection E as E. apply (f_equal qOut) in E. cbn in E. cbn. rewrite app_nil_r. symmetry. exact E.
Qed.
Lemma unpack_claim {L : CryptoLaws} (G : gzip) arch top w b w' : ready w -> pcv_unpack G true arch top w = (b, w') ->
  exists w0, pc_unpack G arch top w = (b, w0) /\ same_but_output w' w0 /\
    ((b = false /\ qOut w' = qOut w /\ qOut w0 = qOut w) \/
     exists es es0, holds_entries w arch es /\ es0 `prefix_of` es /\ (b = true -> es0 = es) /\ (b = false -> es0 <> []) /\
       qOut w' = qOut w ++ concat (map unpacking es0) /\ qOut w0 = qOut w ++ concat (map dir_line es0)).
Proof.
  intros Rw H. destruct (unpack_says G arch top w) as (t & E & X). rewrite E in H. destruct (pc_unpack G arch top w) as [b0 w0]. cbn [fst snd] in *. injection H as <- <-. exists w0. split; [reflexivity|]. split; [apply with_out_differs|]. cbn [qOut with_out].
  destruct X as [(-> & Hb & O)|(s & es & es0 & v & EO & EP & P & T & F & O & ->)]; [left; rewrite app_nil_r; auto|]. right. exists es, es0. split; [eapply (proj1 (opened_iff arch w es Rw)); eassumption|]. auto.
Qed.
Lemma forged_claim {L : CryptoLaws} (G : gzip) a b m m' d d' top w1 w2 w1' w2' arch :
  ready w1 -> ready w2 -> qOut w1 = qOut w2 -> Z.testbit m 31 = false -> Z.testbit m' 31 = false ->
  holds_entries w1 arch [File a m d; File b m' d'] -> holds_entries w2 arch [File (a ++ x0a :: bs "Unpack " ++ b) m d] ->
  pcv_unpack G true arch top w1 = (true, w1') -> pcv_unpack G true arch top w2 = (true, w2') -> qOut w1' = qOut w2'.
Proof.
  intros R1 R2 O M M' H1 H2 E1 E2. destruct (unpack_claim G arch top w1 true w1' R1 E1) as (_ & _ & _ & [(X & _)|(es & es0 & He & _ & T & _ & Oa & _)]); [discriminate|]. rewrite (T eq_refl) in Oa. rewrite (holds_fun w1 arch _ _ H1 He) in Oa.
  destruct (unpack_claim G arch top w2 true w2' R2 E2) as (_ & _ & _ & [(X & _)|(fs & fs0 & Hf & _ & Tf & _ & Ob & _)]); [discriminate|]. rewrite (Tf eq_refl) in Ob. rewrite (holds_fun w2 arch _ _ H2 Hf) in Ob.
  rewrite Oa, Ob, O. f_equal. cbn [map concat]. unfold unpacking, dir_line, folder. cbn [fPath fMode]. rewrite M, M'. generalize (bs "Unpack "). intros u. rewrite !app_nil_r, <- !app_assoc. cbn [app]. rewrite <- !app_assoc. reflexivity.
Qed.
(** The command line. *)
Lemma says_line G args w set rest : line_sets no_duration passcrypt_opts args set rest ->
  passcrypt_says G args w =
    if on set (bs "V") then (true, q_print w (bs "passcrypt version 1.1.0" ++ [x0a])) else
    if on set (bs "u") || on set (bs "l") then
      match rest with
      | [arch] => if on set (bs "u") then pcv_unpack G (on set (bs "v")) arch (given set (bs "o") (bs ".")) w else pc_list arch w
      | _ => (false, w)
      end
    else pcv_pack G (on set (bs "v")) rest (on set (bs "a")) (given set (bs "f") (bs "passcrypt.enc")) w.
Proof.
  intros R. unfold passcrypt_says. rewrite (MainsFacts.taken _ _ passcrypt_agree eq_refl _ _ _ R). cbv zeta. booleans passcrypt_agree R. reflexivity.
Qed.
Lemma says_same G args w b w' : passcrypt_says G args w = (b, w') -> exists w0, passcrypt_command G args w = (b, w0) /\ same_but_output w' w0.
Proof.
  assert (forall v, same_but_output v v) as Rf by (intros v; repeat split). unfold passcrypt_says, passcrypt_command. destruct (parse_flags no_times passcrypt_formal args) as [f rest| |]; cbv zeta; [|intros H; eauto..].
  destruct (bool_flag f (bs "V")); [intros H; eauto|]. destruct (bool_flag f (bs "u") || bool_flag f (bs "l")).
  - destruct rest as [|arch [|? ?]]; [intros H; eauto| |intros H; eauto]. destruct (bool_flag f (bs "u")); [|intros H; eauto]. destruct (bool_flag f (bs "v")).
    + destruct (unpack_says G arch (text_flag f (bs "o")) w) as (t & -> & _). destruct (pc_unpack G arch (text_flag f (bs "o")) w) as [b0 w0]. intros [= <- <-]. exists w0. split; [reflexivity|]. apply with_out_differs.
    + rewrite unpack_quiet. intros H; eauto.
  - destruct (bool_flag f (bs "v")); [|intros H; rewrite pack_quiet in H; eauto].
    destruct (pack_says G (fun _ _ => True) rest (bool_flag f (bs "a")) (text_flag f (bs "f")) w) as (t & -> & _); [auto..| |].
    + intros pws g. cbv zeta. set (w2 := PW (qFs w) (qCwd w) (qUmask w) pws g (qFate w) (qOut w)). destruct (roots_same G rest (qOut w) w2) as (t & E). exists t. split; [exact I|exact E].
    + destruct (pc_pack G rest _ _ w) as [b0 w0]. intros [= <- <-]. exists w0. split; [reflexivity|]. apply with_out_differs.
Qed.
Lemma says_quiet G args w : (forall set rest, line_sets no_duration passcrypt_opts args set rest -> on set (bs "v") = false) -> passcrypt_says G args w = passcrypt_command G args w.
Proof.
  intros Q. destruct (parse_flags no_times passcrypt_formal args) as [f rest| |] eqn:E; [|unfold passcrypt_says, passcrypt_command; rewrite E; reflexivity..].
  destruct (taken_some _ _ passcrypt_agree eq_refl _ _ _ E) as (set & R & _). rewrite (says_line G args w set rest R), (passcrypt_line G args w set rest R), (Q set rest R). destruct (on set (bs "V")); [reflexivity|]. destruct (on set (bs "u") || on set (bs "l")); [|reflexivity]. destruct rest as [|arch [|? ?]]; reflexivity.
Qed.
End Claims.

(** The commands from their command lines. *)
From Verif Require Export FlagFacts DurationFacts Mains.
From Verif Require Import CmdSecretsClaims CmdJournalFacts CmdOtpFacts FcryptClaims CmdCliFacts LoginFacts.
From Verif Require Import CmdSecrets CmdJournal CmdOtp CmdCli Fcrypt Login Passcrypt KeySrv.
From Verif Require Import FlagFacts DurationFacts.
Local Open Scope Z_scope.

(** *** The options of the commands *)
Definition kind_names (l : list (bytes * fval)) : optset :=
  Opts (omap (fun p => match snd p with BoolF _ => Some (fst p) | _ => None end) l)
       (omap (fun p => match snd p with TextF _ => Some (fst p) | _ => None end) l)
       (omap (fun p => match snd p with TimeF _ => Some (fst p) | _ => None end) l).
Lemma agree_formal l : NoDup (l.*1) -> agree (formal l) (kind_names l).
Proof.
  intros N name.
  assert (One : forall v v', (name, v) ∈ l -> (name, v') ∈ l -> v = v').
  { intros v v' H H'. apply (elem_of_list_to_map (M := gmap bytes) l name v N) in H. apply (elem_of_list_to_map (M := gmap bytes) l name v' N) in H'. congruence. }
  assert (K : forall (P : fval -> bool), name ∈ omap (fun p => if P (snd p) then Some (fst p) else None) l <-> exists v, (name, v) ∈ l /\ P v = true).
  { intros P. rewrite elem_of_list_omap. split.
    - intros ([n v] & I & E). cbn in E. destruct (P v) eqn:Pv; [|discriminate]. injection E as <-. eauto.
    - intros (v & I & Pv). exists (name, v). split; [exact I|]. cbn. now rewrite Pv. }
  assert (Sw : name ∈ switches (kind_names l) <-> exists v, (name, v) ∈ l /\ (match v with BoolF _ => true | _ => false end) = true).
  { rewrite <- (K (fun v => match v with BoolF _ => true | _ => false end)). cbn. erewrite list_omap_ext; [reflexivity|].
    apply Forall_Forall2_diag. apply Forall_forall. intros [n [| |]] _; reflexivity. }
  assert (Tx : name ∈ texts (kind_names l) <-> exists v, (name, v) ∈ l /\ (match v with TextF _ => true | _ => false end) = true).
  { rewrite <- (K (fun v => match v with TextF _ => true | _ => false end)). cbn. erewrite list_omap_ext; [reflexivity|].
    apply Forall_Forall2_diag. apply Forall_forall. intros [n [| |]] _; reflexivity. }
  assert (Ti : name ∈ waits (kind_names l) <-> exists v, (name, v) ∈ l /\ (match v with TimeF _ => true | _ => false end) = true).
  { rewrite <- (K (fun v => match v with TimeF _ => true | _ => false end)). cbn. erewrite list_omap_ext; [reflexivity|].
    apply Forall_Forall2_diag. apply Forall_forall. intros [n [| |]] _; reflexivity. }
  destruct (formal l !! name) as [v|] eqn:E.
  - apply elem_of_list_to_map_2 in E.
    assert (Q : forall (P : fval -> bool), (exists v', (name, v') ∈ l /\ P v' = true) <-> P v = true).
    { intros P. split; [intros (v' & I & H); now rewrite (One v v')|eauto]. }
    destruct v; rewrite Sw, Tx, Ti, !Q; repeat split; congruence.
  - apply not_elem_of_list_to_map_2 in E. unfold defined. rewrite Sw, Tx, Ti. intros H.
    assert (exists v, (name, v) ∈ l) as [v I] by (destruct H as [(v & I & _)|[(v & I & _)|(v & I & _)]]; eauto).
    apply E. apply elem_of_list_fmap. exists (name, v). auto.
Qed.

Lemma nodup_dec (l : list bytes) : bool_decide (NoDup l) = true -> NoDup l.
Proof. apply bool_decide_eq_true. Qed.
Ltac agrees := match goal with |- agree (formal ?l) ?o => apply (agree_formal l); apply nodup_dec; vm_compute; reflexivity end.
Lemma secrets_agree home : agree (secrets_formal home) secrets_opts. Proof. unfold secrets_formal. agrees. Qed.
Lemma journal_agree home ed : agree (journal_formal home ed) journal_opts. Proof. unfold journal_formal. agrees. Qed.
Lemma otpc_agree home : agree (otpc_formal home) otpc_opts. Proof. unfold otpc_formal. agrees. Qed.
Lemma fcrypt_agree home : agree (fcrypt_formal home) fcrypt_opts. Proof. unfold fcrypt_formal. agrees. Qed.
Lemma login_agree : agree login_formal login_opts. Proof. unfold login_formal. agrees. Qed.
Lemma passcrypt_agree : agree passcrypt_formal passcrypt_opts. Proof. unfold passcrypt_formal. agrees. Qed.
Lemma cli_agree home : agree (cli_formal home) cli_opts. Proof. unfold cli_formal. agrees. Qed.
Lemma keysrv_agree : agree keysrv_formal keysrv_opts. Proof. unfold keysrv_formal. agrees. Qed.
Lemma empty_agree : agree ∅ no_opts. Proof. change (∅ : fset) with (formal []). agrees. Qed.

(** Without options for durations, it does not matter what durations are. *)
Lemma options_any d1 d2 o pre set : waits o = [] -> options d1 o pre set -> options d2 o pre set.
Proof.
  intros T. assert (K : forall n v, acceptable d1 o n v -> acceptable d2 o n v).
  { intros n v [H|[H|[H _]]]; [now left|now right; left|]. rewrite T in H. now apply elem_of_nil in H. }
  induction 1; [constructor|..]; [apply op_switch|apply op_equals|apply op_value]; auto.
Qed.
Lemma line_any d1 d2 o args set rest : waits o = [] -> line_sets d1 o args set rest -> line_sets d2 o args set rest.
Proof. intros T (pre & tail & E & O & L). exists pre, tail. eauto using options_any. Qed.
Lemma help_any d1 d2 o args : waits o = [] -> asks_help d1 o args -> asks_help d2 o args.
Proof. intros T (pre & set & s & body & name & l & E & O & L). exists pre, set, s, body, name, l. eauto using options_any. Qed.

(** The three ways a line can be taken, for a command without durations. *)
Section Taken.
Context (f : fset) (o : optset) (A : agree f o) (T : waits o = []).
Lemma taken args set rest : line_sets no_duration o args set rest -> parse_flags no_times f args = Parsed (assigns no_times f set) rest.
Proof using A T. intros R. apply (line_parse _ f o); [exact A|]. revert R. now apply line_any. Qed.
Lemma taken_help args : asks_help no_duration o args -> parse_flags no_times f args = Helped.
Proof using A T. intros R. apply (help_parse _ f o); [exact A|]. revert R. now apply help_any. Qed.
Lemma taken_not args : ~ asks_help no_duration o args -> (forall set rest, ~ line_sets no_duration o args set rest) -> parse_flags no_times f args = Refused.
Proof using A T.
  intros H R. apply (parse_refuses _ f o); [exact A|]. split; [intros K; apply H; revert K; now apply help_any|].
  intros set rest K. apply (R set rest). revert K. now apply line_any.
Qed.
Lemma taken_some args g rest : parse_flags no_times f args = Parsed g rest -> exists set, line_sets no_duration o args set rest /\ g = assigns no_times f set.
Proof using A T.
  intros P. apply (parse_exact _ f o) in P as (set & R & E); [|exact A]. exists set. split; [|exact E]. revert R. now apply line_any.
Qed.
Lemma taken_bool args set rest name : line_sets no_duration o args set rest -> f !! name = Some (BoolF false) -> bool_flag (assigns no_times f set) name = on set name.
Proof using A T. intros R. apply (read_bool _ f o args set rest A). revert R. now apply line_any. Qed.
Lemma taken_text args set rest name d : line_sets no_duration o args set rest -> f !! name = Some (TextF d) -> text_flag (assigns no_times f set) name = given set name d.
Proof using A T. intros R. apply (read_text _ f o args set rest A). revert R. now apply line_any. Qed.
End Taken.

Ltac booleans A R := repeat (erewrite (taken_bool _ _ A eq_refl _ _ _ _ R); [|reflexivity]); repeat (erewrite (taken_text _ _ A eq_refl _ _ _ _ _ R); [|reflexivity]).

Ltac line_tac A R := intros R; unfold secrets_command, journal_command, otpc_command, fcrypt_command, login_command, passcrypt_command, migrate_command, keysrv_command;
  rewrite (taken _ _ A eq_refl _ _ _ R); cbn [with_flags]; unfold secrets_flags, fcrypt_flags, mode_flag; booleans A R; reflexivity.
Ltac help_tac A R := intros R; unfold secrets_command, journal_command, otpc_command, fcrypt_command, login_command, passcrypt_command, migrate_command, keysrv_command;
  rewrite (taken_help _ _ A eq_refl _ R); reflexivity.
Ltac refuse_tac A H R := intros H R; unfold secrets_command, journal_command, otpc_command, fcrypt_command, login_command, passcrypt_command, migrate_command, keysrv_command;
  rewrite (taken_not _ _ A eq_refl _ H R); reflexivity.

Section Commands.
Context `{C : Crypto}.

(** *** secrets *)
Lemma secrets_line n home args w set rest : line_sets no_duration secrets_opts args set rest ->
  secrets_command n home args w =
    if on set (bs "V") then Done tt (w_print w (bs "secrets version 1.1.0" ++ [x0a])) else
    secrets_main n (mode set) (secrets_options set) (given set (bs "f") (fjoin home (bs ".secrets.db")))
      (SCfg rest (on set (bs "x")) (on set (bs "w")) (on set (bs "m"))) w.
Proof. line_tac (secrets_agree home) R. Qed.
Lemma secrets_helps n home args w : asks_help no_duration secrets_opts args -> secrets_command n home args w = Done tt w.
Proof. help_tac (secrets_agree home) R. Qed.
Lemma secrets_refuses n home args w : ~ asks_help no_duration secrets_opts args -> (forall set rest, ~ line_sets no_duration secrets_opts args set rest) ->
  secrets_command n home args w = Fail w.
Proof. refuse_tac (secrets_agree home) H R. Qed.

Lemma ends_same {A} (a : A) (w w' : world) : ends (Done a w) w' -> w' = w.
Proof. intros [[x E]|[E|E]]; congruence. Qed.
Lemma ends_fail {A} (w w' : world) : ends (@Fail A w) w' -> w' = w.
Proof. intros [[x E]|[E|E]]; congruence. Qed.

(** Either nothing happened to the files, or the line was in order. *)
Lemma flags_frame {A} o f args (a : A) k w w' : agree f o -> waits o = [] ->
  ends (with_flags (parse_flags no_times f args) a k w) w' ->
  wFs w' = wFs w \/ exists set rest, line_sets no_duration o args set rest.
Proof.
  intros Ag T. destruct (parse_flags no_times f args) as [g rest| |] eqn:P; cbn [with_flags]; intros E.
  - right. destruct (taken_some _ _ Ag T _ _ _ P) as (set & R & _). eauto.
  - left. now apply ends_same in E as ->.
  - left. now apply ends_fail in E as ->.
Qed.

Lemma secrets_files n home args w w' p : ends (secrets_command n home args w) w' -> wFs w' !! p <> wFs w !! p ->
  exists set rest, line_sets no_duration secrets_opts args set rest /\ on set (bs "V") = false /\
    ((p = given set (bs "f") (fjoin home (bs ".secrets.db")) /\ secrets_writes set) \/ (on set (bs "export") = true /\ head rest = Some p)).
Proof.
  intros E D. destruct (flags_frame _ _ _ _ _ _ _ (secrets_agree home) eq_refl E) as [S|(set & rest & R)]; [congruence|].
  exists set, rest. split; [exact R|]. rewrite (secrets_line n home _ w _ _ R) in E. destruct (on set (bs "V")).
  { apply ends_same in E as ->. now contradiction D. }
  split; [reflexivity|]. set (path := given set (bs "f") _) in *. set (c := SCfg rest _ _ _) in *.
  assert (Store : forall fl, fExport fl = false -> ends (secrets_main n (mode set) fl path c w) w' -> secrets_writes set ->
     (p = path /\ secrets_writes set) \/ (on set (bs "export") = true /\ head rest = Some p)).
  { intros fl X En Wr. left. split; [|exact Wr]. destruct (decide (p = path)) as [|N]; [assumption|]. now rewrite (main_only _ _ _ _ _ _ _ X En p N) in D. }
  unfold secrets_options, secrets_main in E. cbn [fInit fMerge fExport fImport fMulti fChPass fList fRemove fStore] in E.
  destruct (on set (bs "init")) eqn:H1; [apply (Store (Flags true false false false false false false false false) eq_refl E); exists (bs "init"); split; [exact H1|set_solver]|].
  destruct (on set (bs "c")) eqn:H2; [apply (Store (Flags false false false false false true false false false) eq_refl E); exists (bs "c"); split; [exact H2|set_solver]|].
  destruct (on set (bs "s")) eqn:H3; [apply (Store (Flags false false false false false false false false true) eq_refl E); exists (bs "s"); split; [exact H3|set_solver]|].
  destruct (on set (bs "r")) eqn:H4; [apply (Store (Flags false false false false false false false true false) eq_refl E); exists (bs "r"); split; [exact H4|set_solver]|].
  destruct (on set (bs "l")) eqn:H5.
  { assert (wFs w' = wFs w); [|congruence]. apply (main_read_only n (mode set) (Flags false false false false false false true false false) path c w w'); auto. }
  destruct (on set (bs "multi")) eqn:H6; [apply (Store (Flags false false false false true false false false false) eq_refl E); exists (bs "multi"); split; [exact H6|set_solver]|].
  destruct (on set (bs "merge")) eqn:H7; [apply (Store (Flags false true false false false false false false false) eq_refl E); exists (bs "merge"); split; [exact H7|set_solver]|].
  destruct (on set (bs "export")) eqn:H8.
  { right. split; [reflexivity|]. destruct rest as [|a rest'].
    - exfalso. unfold arg0 in E. cbn [cArgs c nth] in E. unfold export_store in E. destruct (w_read w path) as [[d|] w1] eqn:Rd.
      + assert (Q : w_write w1 [] (pem_encode pemType [] d) = (false, w1)) by reflexivity. rewrite Q in E. apply ends_fail in E as ->.
        apply D. unfold w_read in Rd. destruct (decide _); [destruct (read_all _); injection Rd as _ <-; reflexivity|injection Rd as _ <-; reflexivity].
      + apply ends_fail in E as ->. apply D. unfold w_read in Rd. destruct (decide _); [destruct (read_all _); discriminate|injection Rd as _ <-; reflexivity].
    - cbn [head]. f_equal. destruct (decide (p = a)) as [|N]; [congruence|]. now rewrite (export_only path a w w' E p N) in D. }
  destruct (on set (bs "import")) eqn:H9; [apply (Store (Flags false false false true false false false false false) eq_refl E); exists (bs "import"); split; [exact H9|set_solver]|].
  assert (wFs w' = wFs w); [|congruence]. apply (main_read_only n (mode set) (Flags false false false false false false false false false) path c w w'); auto.
Qed.

Lemma secrets_init n home args w set rest : line_sets no_duration secrets_opts args set rest -> on set (bs "V") = false -> on set (bs "init") = true ->
  secrets_command n home args w = init_store (given set (bs "f") (fjoin home (bs ".secrets.db"))) (mode set) w.
Proof. intros R V I. rewrite (secrets_line n home _ w _ _ R), V. unfold secrets_main, secrets_options. cbn [fInit]. now rewrite I. Qed.

(** An option after the first argument is an argument. *)
Lemma late_line label (l : list bytes) : no_option label -> line_sets no_duration secrets_opts (bs "-s" :: label :: l) [(bs "s", bs "true")] (label :: l).
Proof.
  intros N. exists [bs "-s"], (label :: l). split; [reflexivity|]. split; [|now constructor].
  apply op_switch; [|apply (bool_decide_eq_false (x3d ∈ _)); vm_compute; reflexivity|cbn; set_solver|constructor].
  split; [now left|]. exists x73, []. split; [reflexivity|]. split; discriminate.
Qed.
Lemma secrets_late n home label other w w' : no_option label -> ends (secrets_command n home [bs "-s"; label; bs "-f"; other] w) w' ->
  only_changes (fjoin home (bs ".secrets.db")) (wFs w) (wFs w').
Proof.
  intros N E p Hp. destruct (decide (wFs w' !! p = wFs w !! p)) as [|D]; [assumption|]. exfalso.
  rewrite (secrets_line _ _ _ _ _ _ (late_line label [bs "-f"; other] N)) in E.
  change (on [(bs "s", bs "true")] (bs "V")) with false in E. cbv iota in E.
  pose proof (main_only _ _ _ _ _ _ _ (eq_refl : fExport (secrets_options [(bs "s", bs "true")]) = false) E p) as K. apply D, K. exact Hp.
Qed.

(** Order. *)
Lemma last_value_in set name v : NoDup (map fst set) -> last_value set name = Some v <-> (name, v) ∈ set.
Proof.
  induction set as [|[n x] set IH]; intros N; cbn [last_value].
  - split; [discriminate|]. intros H. now apply elem_of_nil in H.
  - cbn in N. apply NoDup_cons in N as [Nn N]. specialize (IH N). rewrite elem_of_cons.
    destruct (last_value set name) as [y|] eqn:L.
    + rewrite IH. split; [tauto|]. intros [[= -> ->]|H]; [|exact H]. exfalso. apply Nn.
      assert (K : (n, y) ∈ set). { clear -L. induction set as [|[m z] set IH]; cbn in L; [discriminate|].
        destruct (last_value set n) eqn:E; [injection L as ->; right; now apply IH|]. destruct (decide (m = n)); [|discriminate]. injection L as ->. subst. left. }
      apply elem_of_list_fmap. exists (n, y). auto.
    + destruct (decide (n = name)) as [->|Ne].
      * split; [intros [= ->]; auto|]. intros [[= ->]|H]; [reflexivity|]. apply IH in H. discriminate.
      * split; [discriminate|]. intros [[= -> ->]|H]; [congruence|]. apply IH in H. discriminate.
Qed.
Lemma last_value_perm set1 set2 name : NoDup (map fst set1) -> set1 ≡ₚ set2 -> last_value set1 name = last_value set2 name.
Proof.
  intros N P. assert (N2 : NoDup (map fst set2)). { eapply NoDup_Permutation_proper; [|exact N]. symmetry. now apply fmap_Permutation. }
  apply option_eq. intros v. rewrite !last_value_in by assumption. now rewrite P.
Qed.
Lemma secrets_order n home args1 args2 set1 set2 rest w :
  line_sets no_duration secrets_opts args1 set1 rest -> line_sets no_duration secrets_opts args2 set2 rest -> NoDup (map fst set1) -> set1 ≡ₚ set2 ->
  secrets_command n home args1 w = secrets_command n home args2 w.
Proof.
  intros R1 R2 N P. rewrite (secrets_line _ _ _ _ _ _ R1), (secrets_line _ _ _ _ _ _ R2).
  unfold mode, secrets_options, given, on. now rewrite !(last_value_perm set1 set2) by assumption.
Qed.

(** *** journal *)
Lemma journal_line ed fmt perm home editor args w set rest : line_sets no_duration journal_opts args set rest ->
  journal_command ed fmt perm home editor args w =
    if on set (bs "V") then Done tt (w_print w (bs "journal version 1.1.0" ++ [x0a])) else
    journal_main (mode set) (on set (bs "init")) (on set (bs "e")) (on set (bs "l")) (on set (bs "w"))
      (given set (bs "f") (fjoin home (bs ".cu_journal"))) (JCfg rest (ed (given set (bs "editor") editor)) fmt perm) w.
Proof. line_tac (journal_agree home editor) R. Qed.
Lemma journal_helps ed fmt perm home editor args w : asks_help no_duration journal_opts args -> journal_command ed fmt perm home editor args w = Done tt w.
Proof. help_tac (journal_agree home editor) R. Qed.
Lemma journal_refuses ed fmt perm home editor args w : ~ asks_help no_duration journal_opts args -> (forall set rest, ~ line_sets no_duration journal_opts args set rest) ->
  journal_command ed fmt perm home editor args w = Fail w.
Proof. refuse_tac (journal_agree home editor) H R. Qed.
Lemma journal_files ed fmt perm home editor args w w' p : ends (journal_command ed fmt perm home editor args w) w' -> wFs w' !! p <> wFs w !! p ->
  exists set rest, line_sets no_duration journal_opts args set rest /\ on set (bs "V") = false /\ p = given set (bs "f") (fjoin home (bs ".cu_journal")) /\
    (on set (bs "init") = true \/ on set (bs "e") = true \/ (on set (bs "w") = true /\ on set (bs "l") = false)).
Proof.
  intros E D. destruct (flags_frame _ _ _ _ _ _ _ (journal_agree home editor) eq_refl E) as [S|(set & rest & R)]; [congruence|].
  exists set, rest. split; [exact R|]. rewrite (journal_line _ _ _ _ _ _ w _ _ R) in E. destruct (on set (bs "V")).
  { apply ends_same in E as ->. now contradiction D. }
  split; [reflexivity|]. split.
  - match type of E with ends (journal_main _ _ _ _ _ ?path _ _) _ => destruct (decide (p = path)) as [|N]; [assumption|] end.
    now rewrite (journal_only _ _ _ _ _ _ _ _ _ E p N) in D.
  - unfold journal_main in E. destruct (on set (bs "init")); [auto|]. destruct (on set (bs "e")); [auto|].
    destruct (on set (bs "l")) eqn:Hl; [exfalso; apply D; now rewrite (journal_read_only _ _ _ _ _ _ (or_introl eq_refl) E)|].
    destruct (on set (bs "w")) eqn:Hw; [auto|]. exfalso; apply D; now rewrite (journal_read_only _ _ _ _ _ _ (or_intror eq_refl) E).
Qed.

(** *** otpc *)
Lemma otpc_line F home args w set rest : line_sets no_duration otpc_opts args set rest ->
  otpc_command F home args w =
    if on set (bs "V") then Done tt (w_print w (bs "otpc version 1.1.0" ++ [x0a])) else
    otpc_main F (mode set) (on set (bs "init")) (on set (bs "s")) (on set (bs "qr"))
      (given set (bs "f") (fjoin home (bs ".otpc.db"))) (given set (bs "t") []) rest w.
Proof. line_tac (otpc_agree home) R. Qed.
Lemma otpc_helps F home args w : asks_help no_duration otpc_opts args -> otpc_command F home args w = Done tt w.
Proof. help_tac (otpc_agree home) R. Qed.
Lemma otpc_refuses F home args w : ~ asks_help no_duration otpc_opts args -> (forall set rest, ~ line_sets no_duration otpc_opts args set rest) ->
  otpc_command F home args w = Fail w.
Proof. refuse_tac (otpc_agree home) H R. Qed.
Lemma otpc_files F home args w w' p : ends (otpc_command F home args w) w' -> wFs w' !! p <> wFs w !! p ->
  exists set rest, line_sets no_duration otpc_opts args set rest /\ on set (bs "V") = false /\
    if negb (on set (bs "init")) && negb (on set (bs "s")) && on set (bs "qr") then nth 1 rest [] = p
    else p = given set (bs "f") (fjoin home (bs ".otpc.db")).
Proof.
  intros E D. destruct (flags_frame _ _ _ _ _ _ _ (otpc_agree home) eq_refl E) as [S|(set & rest & R)]; [congruence|].
  exists set, rest. split; [exact R|]. rewrite (otpc_line _ _ _ w _ _ R) in E. destruct (on set (bs "V")).
  { apply ends_same in E as ->. now contradiction D. }
  split; [reflexivity|]. unfold otpc_main in E. set (path := given set (bs "f") _) in *.
  assert (K : forall q, only_changes q (wFs w) (wFs w') -> p = q) by (intros q O; destruct (decide (p = q)) as [|N]; [assumption|]; now rewrite (O p N) in D).
  destruct (on set (bs "init")); cbn [negb andb].
  - apply K. apply (journal_only (mode set) true false false false path (JCfg [] (fun _ => None) (fun _ => []) id) w w'). exact E.
  - destruct (on set (bs "s")); cbn [negb andb]; [apply K; eapply otpc_only; [right; reflexivity|exact E]|].
    destruct (on set (bs "qr")); [|apply K; eapply otpc_only; [left; reflexivity|exact E]].
    symmetry. apply K. pose proof (otpc_qr_only F _ _ _ _ _ E) as Q. exact Q.
Qed.

(** *** fcrypt *)
Lemma fcrypt_line n o home args w set rest : line_sets no_duration fcrypt_opts args set rest ->
  fcrypt_command n o home args w = fc_main n o (fcrypt_options home set rest) w.
Proof. line_tac (fcrypt_agree home) R. Qed.
Lemma fcrypt_helps n o home args w : asks_help no_duration fcrypt_opts args -> fcrypt_command n o home args w = Done RNone w.
Proof. help_tac (fcrypt_agree home) R. Qed.
Lemma fcrypt_refuses n o home args w : ~ asks_help no_duration fcrypt_opts args -> (forall set rest, ~ line_sets no_duration fcrypt_opts args set rest) ->
  fcrypt_command n o home args w = Fail w.
Proof. refuse_tac (fcrypt_agree home) H R. Qed.

(** *** passcrypt *)
Lemma passcrypt_line G args w set rest : line_sets no_duration passcrypt_opts args set rest ->
  passcrypt_command G args w =
    if on set (bs "V") then (true, q_print w (bs "passcrypt version 1.1.0" ++ [x0a])) else
    if on set (bs "u") || on set (bs "l") then
      match rest with
      | [arch] => if on set (bs "u") then pc_unpack G arch (given set (bs "o") (bs ".")) w else pc_list arch w
      | _ => (false, w)
      end
    else pc_pack G rest (on set (bs "a")) (given set (bs "f") (bs "passcrypt.enc")) w.
Proof. line_tac passcrypt_agree R. Qed.
Lemma passcrypt_helps G args w : asks_help no_duration passcrypt_opts args -> passcrypt_command G args w = (true, w).
Proof. help_tac passcrypt_agree R. Qed.
Lemma passcrypt_refuses G args w : ~ asks_help no_duration passcrypt_opts args -> (forall set rest, ~ line_sets no_duration passcrypt_opts args set rest) ->
  passcrypt_command G args w = (false, w).
Proof. refuse_tac passcrypt_agree H R. Qed.

(** *** login, migrate-store, keysrv *)
Lemma login_line `{AuthLib} n qr args w set rest : line_sets no_duration login_opts args set rest ->
  login_command n qr args w = login_main n qr (given set (bs "f") (bs "store.json")) rest w.
Proof. line_tac login_agree R. Qed.
Lemma login_helps `{AuthLib} n qr args w : asks_help no_duration login_opts args -> login_command n qr args w = Done None w.
Proof. help_tac login_agree R. Qed.
Lemma login_refuses `{AuthLib} n qr args w : ~ asks_help no_duration login_opts args -> (forall set rest, ~ line_sets no_duration login_opts args set rest) ->
  login_command n qr args w = Fail w.
Proof. refuse_tac login_agree NH R. Qed.
Lemma no_options pre set : options no_duration no_opts pre set -> pre = [] /\ set = [].
Proof.
  intros [|? ? ? ? _ _ I|? ? ? ? ? _ _ I|? ? ? ? ? _ _ _ I]; [auto|exfalso..]; cbn in I; [now apply elem_of_nil in I|..];
    (destruct I as [[I _]|[I|[I _]]]; now apply elem_of_nil in I).
Qed.
Lemma migrate_line ans args f g rest : leaves args rest ->
  migrate_command ans args f g = migrate_main (imap (fun i p => (p, fst (ans i), snd (ans i))) rest) f g.
Proof. intros L. assert (R : line_sets no_duration no_opts args [] rest) by (exists [], args; split; [reflexivity|split; [constructor|exact L]]). revert R. line_tac empty_agree R. Qed.
Lemma migrate_helps ans args f g : asks_help no_duration no_opts args -> migrate_command ans args f g = (Running, f, g).
Proof. help_tac empty_agree R. Qed.
Lemma migrate_refuses ans args f g : ~ asks_help no_duration no_opts args -> (forall rest, ~ leaves args rest) -> migrate_command ans args f g = (Exit1, f, g).
Proof.
  intros NH N. assert (forall set rest, ~ line_sets no_duration no_opts args set rest) as R.
  { intros set rest (pre & tail & -> & O & L). apply no_options in O as [-> _]. now apply N in L. }
  revert NH R. refuse_tac empty_agree NH R.
Qed.
Lemma keysrv_line args f pass n1 n2 n3 g w set rest : line_sets no_duration keysrv_opts args set rest ->
  keysrv_command args f pass n1 n2 n3 g w = serve_load f (given set (bs "f") (bs "keystore.db")) pass n1 n2 n3 g w.
Proof. line_tac keysrv_agree R. Qed.
Lemma keysrv_else args f pass n1 n2 n3 g w : (forall set rest, ~ line_sets no_duration keysrv_opts args set rest) ->
  keysrv_command args f pass n1 n2 n3 g w = Ret (None, f, g).
Proof.
  intros N. unfold keysrv_command. destruct (parse_flags no_times keysrv_formal args) as [p rest| |] eqn:P; [|auto|auto]. exfalso.
  apply (taken_some _ _ keysrv_agree eq_refl) in P as (set & R & _). now apply N in R.
Qed.

(** *** secretscli *)
Lemma cli_line home args w path m t c : cli_command home args w = Some (path, m, t, c) <->
  exists set rest v w', line_sets (fun v => is_Some (parse_duration v)) cli_opts args set rest /\ path = given set (bs "f") (fjoin home (bs ".secrets.db")) /\
    m = mode set /\ timeout set t /\ t <= 43200 * 1000000000 /\ cli_open path m w = Some (v, w') /\ c = cli_start v w'.
Proof.
  pose proof (cli_agree home) as A. unfold cli_command, timeout.
  assert (K : forall set rest, line_sets (fun v => is_Some (parse_duration v)) cli_opts args set rest ->
    let f := assigns parse_duration (cli_formal home) set in
    text_flag f (bs "f") = given set (bs "f") (fjoin home (bs ".secrets.db")) /\ mode_flag f = mode set /\
    match last_value set (bs "t") with Some v => parse_duration v = Some (time_flag f (bs "t")) | None => time_flag f (bs "t") = 300 * 1000000000 end).
  { intros set rest R. cbv zeta. split; [apply (read_text _ _ _ _ _ _ A R); reflexivity|]. split.
    - unfold mode_flag, mode. rewrite (read_bool _ _ _ _ _ _ A R) by reflexivity. reflexivity.
    - apply (read_time _ _ _ _ _ _ A R). reflexivity. }
  split.
  - destruct (parse_flags _ _ _) as [f rest| |] eqn:P; [|discriminate..]. apply (parse_exact _ _ _ _ _ _ A) in P as (set & R & ->).
    destruct (K _ _ R) as (K1 & K2 & K3). destruct (decide _) as [|G]; [discriminate|].
    destruct (cli_open _ _ w) as [[v w']|] eqn:O; [|discriminate]. intros [= <- <- <- <-]. exists set, rest, v, w'.
    split; [exact R|]. split; [exact K1|]. split; [exact K2|]. split; [exact K3|]. split; [unfold minute in G; lia|]. auto.
  - intros (set & rest & v & w' & R & -> & -> & Ht & Hb & O & ->). rewrite (line_parse _ _ _ _ _ _ A R).
    destruct (K _ _ R) as (K1 & K2 & K3). rewrite K1, K2.
    assert (Et : time_flag (assigns parse_duration (cli_formal home) set) (bs "t") = t) by (destruct (last_value set (bs "t")); congruence).
    rewrite Et. rewrite decide_False by (unfold minute; lia). now rewrite O.
Qed.
End Commands.

(** Property C87: the temporary file of journal. *)
From Verif Require Export JournalTmpClaims PropsJournal.
Local Open Scope Z_scope.

(** C87. The temporary file of journal. *)
Theorem C87_same_run :
  forall (C : Crypto) (E : tmpenv) m x path c w,
    clean E (wFs w) -> journal_run_tmp E m x path c w = journal_run m x path (edits_with E (wFs w) c) w.
Proof. exact @run_tmp. Qed.
Print Assumptions C87_same_run.

Theorem C87_gone :
  forall (E : tmpenv) p,
    eName E = Some p -> eRm1 E = true -> forall (C : Crypto) m x path c w w',
    p <> path -> wFs w !! p = None -> ends (journal_run_tmp E m x path c w) w' -> wFs w' !! p = None.
Proof. exact @run_gone. Qed.
Print Assumptions C87_gone.

(** One session with the editor: which files are left, exactly. *)
Theorem C87_left_exactly :
  forall (E : tmpenv) p content f,
    eName E = Some p ->
    snd (fst (session E content f)) !! p = None <->
    eRm1 E = true \/ eRm2 E = true \/ snd (eRun E (editor_args (eProg E) p) (<[p := arrives (eWrite E) content]> f)) !! p = None.
Proof. exact session_gone. Qed.
Print Assumptions C87_left_exactly.

Theorem C87_other_files :
  forall (E : tmpenv) p content f q,
    eName E = Some p -> tidy E p -> q <> p -> snd (fst (session E content f)) !! q = f !! q.
Proof. exact session_others. Qed.
Print Assumptions C87_other_files.

Theorem C87_read_back :
  forall (E : tmpenv) p content f,
    eName E = Some p ->
    fst (fst (session E content f)) =
    let '(ok, g) := eRun E (editor_args (eProg E) p) (<[p := arrives (eWrite E) content]> f) in if ok && eRead E then g !! p else None.
Proof. exact session_result. Qed.
Print Assumptions C87_read_back.

Theorem C87_warning :
  forall (E : tmpenv) p content f,
    eName E = Some p ->
    snd (session E content f) = [] <-> eRm1 E = true /\ is_Some (snd (eRun E (editor_args (eProg E) p) (<[p := arrives (eWrite E) content]> f)) !! p).
Proof. exact session_warns. Qed.
Print Assumptions C87_warning.

(** So it warns of a file that is not there. *)
Theorem C87_warning_true_refuted :
  exists (E : tmpenv) p content f,
    eName E = Some p /\ snd (session E content f) <> [] /\ snd (fst (session E content f)) !! p = None.
Proof.
  exists (TmpEnv (Some (bs "t")) WOk [] (fun _ f => (true, delete (bs "t") f)) true true true []), (bs "t"), [], ∅.
  split; [reflexivity|]. split; [|vm_compute; reflexivity]. vm_compute. discriminate.
Qed.
Print Assumptions C87_warning_true_refuted.

(** The command line: the words of the editor's name, and the file last. *)
Theorem C87_command_line :
  forall prog file,
    exists ws, editor_args prog file = ws ++ [file] /\ ws <> [] /\ Forall (fun w => x20 ∉ w) ws /\
      unwords ws = if decide (prog = []) then bs "vim -f -n -i NONE +star" else prog.
Proof. exact args_spec. Qed.
Print Assumptions C87_command_line.

(** Killed on the way. *)
Theorem C87_killed :
  forall (E : tmpenv) mid p content f,
    eName E = Some p -> tidy E p -> (forall g h q, h ∈ mid g -> q <> p -> h !! q = g !! q) ->
    forall h q, h ∈ session_states E mid content f -> q <> p -> h !! q = f !! q.
Proof. exact states_others. Qed.
Print Assumptions C87_killed.

Theorem C87_killed_last :
  forall (E : tmpenv) mid content f, last (session_states E mid content f) = Some (snd (fst (session E content f))).
Proof. exact states_last. Qed.
Print Assumptions C87_killed_last.

Theorem C87_killed_clear_refuted :
  forall (E : tmpenv) mid p content f,
    eName E = Some p -> eWrite E = WOk -> exists h, h ∈ session_states E mid content f /\ h !! p = Some content.
Proof. exact states_clear. Qed.
Print Assumptions C87_killed_clear_refuted.

(** If the temporary file could not be written, editing without changing anything
    replaces the entry by what was written of it. *)
Theorem C87_unwritten_refuted :
  forall (C : Crypto) (L : CryptoLaws) (E : tmpenv) m path c w w',
    clean E (wFs w) -> willing E -> looks E -> plain_path path -> good_clock w -> journal_run_tmp E m JEdit path c w = Done tt w' ->
    exists pass s s' title rest r, head (wPw w) = Some (Some pass) /\ jArgs c = title :: rest /\ opens (wFs w) path m pass s /\ saved (wFs w') path m s' /\
      same_but title s s' /\ slot s title = Some (Some r) /\
      slot s' title = Some (Some (SRec (rLabel r) (rTime r) (Some (arrives (eWrite E) (default [] (rSecret r)))) (rMeta r))).
Proof. exact @tmp_lost. Qed.
Print Assumptions C87_unwritten_refuted.

(** An editor that adds a letter to its file. *)
Definition xt_env (fate : wfate) (add : bytes) (rm1 rm2 : bool) : tmpenv :=
  TmpEnv (Some (bs "t")) fate (bs "ed -q") (fun args f => (true, match f !! List.last args [] with Some d => <[List.last args [] := d ++ add]> f | None => f end)) true rm1 rm2 (bs "why").
Definition xt_files (r : res unit) : list bytes := match r with Done _ w | Fail w | Crash w => map fst (map_to_list (wFs w)) | Spin => [] end.
Definition xt_out (r : res unit) : bytes := match r with Done _ w | Fail w | Crash w => wOut w | Spin => [] end.
Example C87_nonvacuous :
  (* edited *)
  xj_view (journal_run_tmp (C:=toy) (xt_env WOk (bs "x") true true) 1 JEdit (bs "f") (xj_cfg (bs "a")) (xj_world [])) = Some [(bs "a", (3, Some (bs "Ax"))); (bs "b", (3, Some (bs "B")))] /\
  (* the disk was full: the entry is lost *)
  xj_view (journal_run_tmp (C:=toy) (xt_env (WPartial 0) [] true true) 1 JEdit (bs "f") (xj_cfg (bs "a")) (xj_world [])) = Some [(bs "a", (3, Some [])); (bs "b", (3, Some (bs "B")))] /\
  (* the second removal works *)
  xt_files (journal_run_tmp (C:=toy) (xt_env WOk [] false true) 1 JEdit (bs "f") (xj_cfg (bs "a")) (xj_world [])) = [bs "f"] /\
  xt_out (journal_run_tmp (C:=toy) (xt_env WOk [] false true) 1 JEdit (bs "f") (xj_cfg (bs "a")) (xj_world [])) = warning (bs "t") (bs "why") /\
  (* neither *)
  length (xt_files (journal_run_tmp (C:=toy) (xt_env WOk [] false false) 1 JEdit (bs "f") (xj_cfg (bs "a")) (xj_world []))) = 2%nat /\
  editor_args [] (bs "/tmp/cu_journal1") = [bs "vim"; bs "-f"; bs "-n"; bs "-i"; bs "NONE"; bs "+star"; bs "/tmp/cu_journal1"] /\ editor_args (bs " ed") (bs "a b") = [[]; bs "ed"; bs "a b"].
Proof. vm_compute. split_and!; reflexivity. Qed.
Example C87_clean :
  let E := TmpEnv (Some (bs "t")) (WPartial 0) (bs "ed") (fun _ f => (true, f)) true true true [] in
  clean E (wFs (xj_world [])) /\ willing E /\ looks E /\ plain_path (bs "f") /\ good_clock (xj_world []) /\
  match journal_run_tmp (C:=toy) E 1 JEdit (bs "f") (xj_cfg (bs "a")) (xj_world []) with Done _ _ => true | _ => false end = true.
Proof.
  split; [|split; [split; reflexivity|split; [intros args f; reflexivity|]]].
  - exists (bs "t"). split; [reflexivity|]. split; [vm_compute; reflexivity|]. split; [intros args f q _; reflexivity|]. split; [intros args f H; exact H|reflexivity].
  - split; [split; vm_compute; congruence|]. split; [|vm_compute; reflexivity]. repeat constructor; vm_compute; congruence.
Qed.

(** Properties C56 to C58: sessions of secretscli. *)
From Verif Require Export CmdCliClaims Toy.
Local Open Scope Z_scope.

(** For the examples: a store file under the toy primitives, and sessions on it. *)
Definition xi_store : sstore :=
  SStore 1 5 (Some {[ bs "mail" := Some (SRec (bs "mail") 3 (Some (bs "s1")) (Some {[ bs "user" := Some (bs "kyle") ]})) ]}) (Some (bs "pw")).
Definition xi_rng : rng := replicate 180 (Some x2a).
Definition xi_file : bytes := match marshal_store (C:=toy) xi_store 1 xi_rng with Ret (Some d, _, _) => d | _ => [] end.
Definition xi_world (ls : list bytes) (pw : list bytes) (fate : list wfate) : world :=
  World {[ bs "f" := xi_file ]} (map typed ls) (map Some pw) [7; 8; 9] xi_rng fate [].
Global Instance xi_tty : Tty := {| tty_width := fun _ => Some 30; tty_time := fun _ => bs "now"; tty_meta := fun _ md => map_to_list md |}.
(** Run the lines typed, then shut down. *)
Fixpoint xi_go (n : nat) (v : sess) (w : world) : cres :=
  match n with
  | O => CPanic v w
  | S n =>
      match read_line (wIn w) with
      | (None, i) => shutdown (C:=toy) (bs "f") 1 v (set_in w i)
      | (Some l, i) =>
          if decide (l = bs "quit") then shutdown (C:=toy) (bs "f") 1 v (set_in w i) else
          match command (C:=toy) (bs "f") 1 l v (set_in w i) with CRet _ v w => xi_go n v w | r => r end
      end
  end.
Definition xi_session (ls pw : list bytes) (fate : list wfate) : cres :=
  match cli_open (C:=toy) (bs "f") 1 (xi_world ls pw fate) with
  | Some (v, w) => xi_go 9 v w
  | None => CPanic (Sess xi_store true) (xi_world ls pw fate)
  end.
Definition xi_view (pass : bytes) (r : cres) : option (list (bytes * (bytes * Z * option bytes * list (bytes * option bytes)))) :=
  match r with
  | CRet true _ w | CExit _ w =>
      match wFs w !! bs "f" with
      | Some d =>
          match unmarshal_store (C:=toy) d pass 1 with
          | Ret (Some s) => Some (map (fun kv => (fst kv, match snd kv with Some r => (rLabel r, rTime r, rSecret r, map_to_list (default ∅ (rMeta r))) | None => ([], 0, None, []) end)) (map_to_list (recs s)))
          | _ => None
          end
      | None => None
      end
  | _ => None
  end.
Definition xi_same (r : cres) : bool := match r with CRet true _ w | CExit _ w => bool_decide (wFs w !! bs "f" = Some xi_file) | _ => false end.
(** C56. What the commands store and write save. *)
Theorem C56_words :
  forall s xs,
    str_fields s = xs <-> line_words s xs.
Proof. exact @fields_iff. Qed.
Print Assumptions C56_words.

Theorem C56_store :
  forall (C : Crypto) (T : Tty) path m l label v w v' w',
    line_words l [bs "store"; label] -> command path m l v w = CRet true v' w' ->
    wFs w' = wFs w /\
    ((exists r a i, slot (vStore v) label = Some r /\ read_line (wIn w) = (Some a, i) /\ ~ affirmative a /\ v' = v) \/
     exists p r, p <> [] /\ head (wPw w) = Some (Some p) /\ vDirty v' = true /\
       sVersion (vStore v') = sVersion (vStore v) /\ sPass (vStore v') = sPass (vStore v) /\ sTime (vStore v') = nth 0 (wClk w) 0 /\
       same_but label (vStore v) (vStore v') /\
       slot (vStore v') label = Some (Some (SRec (rLabel r) (nth 0 (wClk w) 0) (Some p) (rMeta r))) /\
       ((slot (vStore v) label = None /\ r = SRec [] 0 None None) \/
        (slot (vStore v) label = Some (Some r) /\ exists a i, read_line (wIn w) = (Some a, i) /\ affirmative a))).
Proof. exact @store_one_exact. Qed.
Print Assumptions C56_store.

Theorem C56_quit_saves :
  forall (C : Crypto) (T : Tty) (L : CryptoLaws) path m w0 v w ls v1 w1 v2 w2,
    plain_path path -> good_clock w0 -> cli_open path m w0 = Some (v, w) ->
    session_ends path m v w ls v1 w1 -> Forall no_save ls -> shutdown path m v1 w1 = CRet true v2 w2 ->
    (forall k, (forall l, l ∈ ls -> ~ concerns k l) -> slot (vStore v1) k = slot (vStore v) k) /\
    (Forall (fun l => ~ verb l (bs "passwd")) ls -> sPass (vStore v1) = sPass (vStore v)) /\
    wFs w1 = wFs w0 /\ only_changes path (wFs w0) (wFs w2) /\
    (vDirty v1 = true -> saved (wFs w2) path m (vStore v1)) /\
    (vDirty v1 = false -> wFs w2 = wFs w0).
Proof. exact @quit_saves. Qed.
Print Assumptions C56_quit_saves.

Theorem C56_write_works :
  forall (C : Crypto) (L : CryptoLaws) path m v w salt nonce g1 g2,
    path <> [] -> disk_ok w -> vDirty v = true -> sound (vStore v) -> m = 0 \/ m = 1 ->
    length salt = 32%nat -> length nonce = 24%nat -> delivers (wRng w) salt g1 -> delivers g1 nonce g2 ->
    exists v' w', write_session path m v w = CRet true v' w'.
Proof. exact @write_session_works. Qed.
Print Assumptions C56_write_works.

Theorem C56_write_destroys :
  forall (C : Crypto) (T : Tty) (L : CryptoLaws) path m l v w v1 w1 pass ls v2 w2 v3 w3,
    plain_path path -> good_clock w -> go_store (vStore v) -> sPass (vStore v) = Some pass -> vDirty v = true ->
    line_words l [bs "write"] -> command path m l v w = CRet true v1 w1 ->
    runs path m v1 w1 ls v2 w2 -> Forall (fun l => ~ verb l (bs "passwd")) ls -> vDirty v2 = true ->
    write_session path m v2 w2 = CRet true v3 w3 \/ shutdown path m v2 w2 = CRet true v3 w3 ->
    saved (wFs w1) path m (vStore v) /\
    exists s, hollow (length pass) (fun k => exists l, l ∈ ls /\ concerns k l) s /\ saved (wFs w3) path m s /\
      exists d, wFs w3 !! path = Some d /\ forall pass', locks_out d m (zeros (length pass)) (print (jstore s)) pass' -> unmarshal_store d pass' m = Ret None.
Proof. exact @write_destroys. Qed.
Print Assumptions C56_write_destroys.

Theorem C56_failed_write_wipes :
  forall (C : Crypto) (T : Tty) (L : CryptoLaws) path m l v w v1 w1 pass salt nonce g1 g2 ls v2 w2 v3 w3,
    plain_path path -> good_clock w -> go_store (vStore v) -> sPass (vStore v) = Some pass -> vDirty v = true -> sound (vStore v) -> m = 0 \/ m = 1 ->
    length salt = 32%nat -> length nonce = 24%nat -> delivers (wRng w) salt g1 -> delivers g1 nonce g2 ->
    line_words l [bs "write"] -> command path m l v w = CRet false v1 w1 ->
    vDirty v1 = true /\ hollow (length pass) (fun _ => False) (vStore v1) /\
    (runs path m v1 w1 ls v2 w2 -> Forall (fun l => ~ verb l (bs "passwd")) ls -> vDirty v2 = true ->
     write_session path m v2 w2 = CRet true v3 w3 \/ shutdown path m v2 w2 = CRet true v3 w3 ->
     exists s, hollow (length pass) (fun k => exists l, l ∈ ls /\ concerns k l) s /\ saved (wFs w3) path m s).
Proof. exact @write_fails_wipes. Qed.
Print Assumptions C56_failed_write_wipes.

Example C56_nonvacuous :
  (* stored, then quit *)
  xi_view (bs "pw") (xi_session [bs "store web"; bs "quit"] [bs "pw"; bs "new"] []) =
    Some [(bs "web", ([], 7, Some (bs "new"), [])); (bs "mail", (bs "mail", 3, Some (bs "s1"), [(bs "user", Some (bs "kyle"))]))] /\
  (* replaced after a yes; kept after a no *)
  xi_view (bs "pw") (xi_session [bs " store  mail "; bs "Yes"; bs "quit"] [bs "pw"; bs "new"] []) =
    Some [(bs "mail", (bs "mail", 7, Some (bs "new"), [(bs "user", Some (bs "kyle"))]))] /\
  xi_same (xi_session [bs "store mail"; bs "no"; bs "quit"] [bs "pw"; bs "new"] []) = true /\
  (* written, then changed and written again: hollow, under zeros *)
  xi_view (bs "pw") (xi_session [bs "store web"; bs "write"; bs "store x"; bs "quit"] [bs "pw"; bs "new"; bs "n2"] []) = None /\
  xi_view [x00; x00] (xi_session [bs "store web"; bs "write"; bs "store x"; bs "quit"] [bs "pw"; bs "new"; bs "n2"] []) =
    Some [(bs "web", ([], 7, Some [x00; x00; x00], [])); (bs "mail", (bs "mail", 3, Some [x00; x00], [(bs "user", Some [x00; x00; x00; x00])])); (bs "x", ([], 8, Some (bs "n2"), []))] /\
  (* a write that the disk refuses, then quit *)
  xi_view [x00; x00] (xi_session [bs "store web"; bs "write"; bs "quit"] [bs "pw"; bs "new"] [WFailOpen]) =
    Some [(bs "web", ([], 7, Some [x00; x00; x00], [])); (bs "mail", (bs "mail", 3, Some [x00; x00], [(bs "user", Some [x00; x00; x00; x00])]))].
Proof. vm_compute. split_and!; reflexivity. Qed.

(** C57. A changed passphrase alone is not saved. *)
Theorem C57_passwd_lost :
  forall (C : Crypto) (T : Tty) (L : CryptoLaws) path m w0 v w c,
    cli_open path m w0 = Some (v, w) -> reaches path m (cli_start v w) c ->
    Forall (fun l => quiet l \/ verb l (bs "quit")) (tDone c) ->
    wFs (tWorld c) = wFs w0 /\ exists pass, head (wPw w0) = Some (Some pass) /\ opens (wFs (tWorld c)) path m pass (vStore v).
Proof. exact @passwd_lost. Qed.
Print Assumptions C57_passwd_lost.

Theorem C57_passwd_in_session :
  forall (C : Crypto) (T : Tty) path m l args v w p ps,
    line_words l (bs "passwd" :: args) -> wPw w = Some p :: Some p :: ps ->
    exists w', command path m l v w = CRet true (Sess (change_password (vStore v) p) (vDirty v)) w' /\ wFs w' = wFs w /\ sPass (change_password (vStore v) p) = Some p.
Proof. exact @passwd_session. Qed.
Print Assumptions C57_passwd_in_session.

Example C57_nonvacuous :
  xi_same (xi_session [bs "passwd"; bs "show mail"; bs "quit now"] [bs "pw"; bs "p2"; bs "p2"] []) = true /\
  xi_view (bs "p2") (xi_session [bs "passwd"; bs "store web"; bs "quit"] [bs "pw"; bs "p2"; bs "p2"; bs "new"] []) =
    Some [(bs "web", ([], 7, Some (bs "new"), [])); (bs "mail", (bs "mail", 3, Some (bs "s1"), [(bs "user", Some (bs "kyle"))]))].
Proof. vm_compute. split_and!; reflexivity. Qed.
Example C57_lines : quiet (bs "passwd") /\ quiet (bs "show mail") /\ verb (bs "quit now") (bs "quit") /\ ~ quiet (bs " store x").
Proof.
  assert (forall l x, verb l x -> head (str_fields l) = Some x) as V by (intros l x [a W]; apply fields_iff in W; rewrite W; reflexivity).
  split_and!.
  - repeat split; intros H; apply V in H; vm_compute in H; discriminate H.
  - repeat split; intros H; apply V in H; vm_compute in H; discriminate H.
  - exists [bs "now"]. apply fields_iff. vm_compute. reflexivity.
  - intros (H & _). apply H. exists [bs "x"]. apply fields_iff. vm_compute. reflexivity.
Qed.

(** C58. Reader, loop and timer. *)
Theorem C58_open :
  forall (C : Crypto) (T : Tty) (L : CryptoLaws) path m v0 w0 c,
    reaches path m (cli_start v0 w0) c -> tLoop c <> LExited -> tLoop c <> LReturned ->
    exists w1, runs path m v0 w0 (tDone c) (tSess c) w1 /\ but_ahead w1 (tWorld c).
Proof. exact @seq_open. Qed.
Print Assumptions C58_open.

Theorem C58_closed :
  forall (C : Crypto) (T : Tty) (L : CryptoLaws) path m v0 w0 c,
    reaches path m (cli_start v0 w0) c -> tLoop c = LExited ->
    (exists v1 w1 w2 ok, session_ends path m v0 w0 (tDone c) v1 w1 /\ shutdown path m v1 w1 = CRet ok (tSess c) w2 /\ but_ahead w2 (tWorld c)) \/
    (exists ls l v1 w1 i, tDone c = ls ++ [l] /\ runs path m v0 w0 ls v1 w1 /\ read_line (wIn w1) = (Some l, i) /\
      command path m l v1 (set_in w1 i) = CExit (tSess c) (tWorld c)).
Proof. exact @seq_closed. Qed.
Print Assumptions C58_closed.

Theorem C58_quit_in_command :
  forall (C : Crypto) (T : Tty) (L : CryptoLaws) path m l v w v' w',
    command path m l v w = CExit v' w' -> verb l (bs "quit") /\ exists ok, shutdown path m v w = CRet ok v' w'.
Proof. exact @exit_quit. Qed.
Print Assumptions C58_quit_in_command.

Theorem C58_realised :
  forall (C : Crypto) (T : Tty) path m v w ls v' w',
    runs path m v w ls v' w' -> reaches path m (cli_start v w) (Cli RRead LSelect false false v' w' ls).
Proof. exact @runs_realised. Qed.
Print Assumptions C58_realised.

Theorem C58_exclusive :
  forall (C : Crypto) (T : Tty) (L : CryptoLaws) path m v0 w0 c,
    reaches path m (cli_start v0 w0) c -> (exists l, tLoop c = LRun l) \/ tLoop c = LReply -> tRead c = RWait.
Proof. exact @exclusive. Qed.
Print Assumptions C58_exclusive.

Theorem C58_progress :
  forall (C : Crypto) (T : Tty) (L : CryptoLaws) path m v0 w0 c,
    reaches path m (cli_start v0 w0) c -> tLoop c <> LExited -> exists c', cli_step path m c c'.
Proof. exact @progress. Qed.
Print Assumptions C58_progress.

Theorem C58_nothing_after_exit :
  forall (C : Crypto) (T : Tty) path m c c',
    cli_step path m c c' -> tLoop c <> LExited.
Proof. exact @exited_stuck. Qed.
Print Assumptions C58_nothing_after_exit.

Theorem C58_nothing_after_return :
  forall (C : Crypto) (T : Tty) path m c0 c,
    tLoop c0 = LReturned -> reaches path m c0 c -> tDone c = tDone c0 /\ (tLoop c = LReturned \/ tLoop c = LExited).
Proof. exact @returned_done. Qed.
Print Assumptions C58_nothing_after_return.

Theorem C58_timeout_saves :
  forall (C : Crypto) (T : Tty) (L : CryptoLaws) path m v0 w0 r ic v w d salt nonce g1 g2,
    plain_path path -> good_clock w0 -> go_store (vStore v0) ->
    reaches path m (cli_start v0 w0) (Cli r LSelect ic false v w d) ->
    vDirty v = true -> sound (vStore v) -> m = 0 \/ m = 1 -> disk_ok w ->
    length salt = 32%nat -> length nonce = 24%nat -> delivers (wRng w) salt g1 -> delivers g1 nonce g2 ->
    cli_step path m (Cli r LSelect ic false v w d) (Cli r LReturned ic true v w d) /\
    forall c, reaches path m (Cli r LReturned ic true v w d) c -> tDone c = d /\
      match tLoop c with
      | LReturned => exists c', cli_step path m c c' /\ tLoop c' = LExited
      | LExited => saved (wFs (tWorld c)) path m (vStore v) /\ hollow (length (default [] (sPass (vStore v)))) (fun _ => False) (vStore (tSess c))
      | _ => False
      end.
Proof. exact @timeout_saves. Qed.
Print Assumptions C58_timeout_saves.

Theorem C58_every_line_refuted :
  forall (C : Crypto) (T : Tty) path m l ic v w d,
    cli_step path m (Cli (RSend l) LSelect ic false v w d) (Cli (RSend l) LReturned ic true v w d) /\
    forall c, reaches path m (Cli (RSend l) LReturned ic true v w d) c -> tDone c = d.
Proof. exact @timeout_drops. Qed.
Print Assumptions C58_every_line_refuted.

(** A session in which one line is run and the next, read, is dropped. *)
Example C58_nonvacuous : exists c, reaches (C:=toy) (bs "f") 1 (cli_start (Sess xi_store true) (xi_world [bs "show mail"; bs "store x"] [] [])) c /\
  tDone c = [bs "show mail"] /\ tLoop c = LExited /\ tRead c = RSend (bs "store x").
Proof.
  set (w0 := xi_world _ _ _). set (i1 := [typed (bs "store x")]). set (w1 := w_print (set_in w0 i1) (bs "s1" ++ [x0a])).
  assert (runs (C:=toy) (bs "f") 1 (Sess xi_store true) w0 [bs "show mail"] (Sess xi_store true) w1) as R.
  { apply (rs_line _ _ _ _ i1 _ true (Sess xi_store true) w1); [vm_compute; reflexivity|discriminate|discriminate|vm_compute; reflexivity|constructor]. }
  apply runs_realised in R.
  destruct (shutdown_total (C:=toy) (L:=toy_laws) (bs "f") 1 (Sess xi_store true) (set_in w1 [])) as (ok & v2 & w2 & E).
  exists (Cli (RSend (bs "store x")) LExited false true v2 w2 [bs "show mail"]). split; [|auto].
  eapply rc_step; [eapply rc_step; [eapply rc_step; [exact R|]|apply st_timeout]|eapply st_shutdown; exact E].
  apply st_line; [discriminate|vm_compute; reflexivity|discriminate].
Qed.
(** The assumptions of C58_timeout_saves can be met. *)
Example C58_saves_nonvacuous :
  plain_path (bs "f") /\ good_clock (xi_world [] [] []) /\ go_store xi_store /\ sound xi_store /\ disk_ok (xi_world [] [] []) /\
  reaches (C:=toy) (bs "f") 1 (cli_start (Sess xi_store true) (xi_world [] [] [])) (Cli RRead LSelect false false (Sess xi_store true) (xi_world [] [] []) []) /\
  delivers (wRng (xi_world [] [] [])) (replicate 32 x2a) (replicate 148 (Some x2a)) /\ delivers (replicate 148 (Some x2a)) (replicate 24 x2a) (replicate 124 (Some x2a)).
Proof.
  refine (conj (conj _ _) (conj _ (conj _ (conj _ (conj _ (conj _ (conj _ _))))))); [discriminate|discriminate|repeat constructor; cbn; lia| | |constructor|constructor|reflexivity|reflexivity].
  - refine (conj _ (conj _ _)); [unfold int64; cbn; lia|unfold int64; cbn; lia|].
    intros m k r [= <-] H. apply lookup_singleton_Some in H as [_ [= <-]]. unfold go_rec, int64. cbn. lia.
  - split_and!; [reflexivity|discriminate..].
Qed.


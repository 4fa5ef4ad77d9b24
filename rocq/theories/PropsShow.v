(** Property C77: what secretscli shows. Property C56, continued: metadata. Property
    C58, continued: the end of the input. *)
From Verif Require Export ShowFacts PropsCli.
From Verif Require Import SpecShow.
Local Open Scope Z_scope.

(** C77. *)
Theorem C77_list :
  forall (C : Crypto) (T : Tty) path m l pats v w,
    line_words l (bs "list" :: pats) ->
    exists t, listing (default 80 (tty_width (wOut w))) (vStore v) pats t /\ command path m l v w = CRet true v (w_print w t).
Proof. exact @cli_lists. Qed.
Print Assumptions C77_list.

Theorem C77_show :
  forall (C : Crypto) (T : Tty) (hx : bool) path m l args v w,
    line_words l ((if hx then bs "showhex" else bs "show") :: args) -> args <> [] -> whole (vStore v) args ->
    exists ts, Forall2 (shown hx (bool_decide (1 < length args)%nat) (vStore v)) args ts /\ command path m l v w = CRet true v (w_print w (concat ts)).
Proof. exact @cli_shows. Qed.
Print Assumptions C77_show.

Theorem C77_show_panics :
  forall (C : Crypto) (T : Tty) (hx : bool) path m l pre a post v w,
    line_words l ((if hx then bs "showhex" else bs "show") :: pre ++ a :: post) -> whole (vStore v) pre -> slot (vStore v) a = Some None ->
    exists ts, Forall2 (shown hx (bool_decide (0 < length pre + length post)%nat) (vStore v)) pre ts /\ command path m l v w = CPanic v (w_print w (concat ts)).
Proof. exact @cli_show_panics. Qed.
Print Assumptions C77_show_panics.

Theorem C77_rmeta :
  forall (C : Crypto) (T : Tty) (TL : TtyLaws) path m l args v w,
    line_words l (bs "rmeta" :: args) -> args <> [] -> whole (vStore v) args ->
    exists ts, Forall2 (described tty_time (vStore v)) args ts /\ command path m l v w = CRet true v (w_print w (concat ts)).
Proof. exact @cli_describes. Qed.
Print Assumptions C77_rmeta.

Theorem C77_rmeta_panics :
  forall (C : Crypto) (T : Tty) (TL : TtyLaws) path m l pre a post v w,
    line_words l (bs "rmeta" :: pre ++ a :: post) -> whole (vStore v) pre -> slot (vStore v) a = Some None ->
    exists ts, Forall2 (described tty_time (vStore v)) pre ts /\ command path m l v w = CPanic v (w_print w (concat ts ++ bs "Record: " ++ a ++ [x0a])).
Proof. exact @cli_describe_panics. Qed.
Print Assumptions C77_rmeta_panics.

Theorem C77_no_labels :
  forall (C : Crypto) (T : Tty) path m l cmd v w,
    line_words l [cmd] -> cmd ∈ map bs ["rmeta"; "show"; "showhex"; "store"; "wmeta"]%string -> command path m l v w = CRet false v w.
Proof. exact @cli_no_labels. Qed.
Print Assumptions C77_no_labels.

Theorem C77_help :
  forall (C : Crypto) (T : Tty) path m l v w,
    line_words l [bs "help"] -> exists t, command path m l v w = CRet true v (w_print w t) /\
    forall c, c ∈ verbs -> exists a b d, t = a ++ [x0a; x09] ++ c ++ bs ": " ++ d ++ [x0a] ++ b /\ d <> [].
Proof. exact @cli_help. Qed.
Print Assumptions C77_help.

Theorem C77_help_on :
  forall (C : Crypto) (T : Tty) path m l c args v w,
    line_words l (bs "help" :: c :: args) ->
    (c ∈ verbs -> exists t, command path m l v w = CRet true v (w_print w (c ++ bs ": " ++ t))) /\ (c ∉ verbs -> command path m l v w = CRet false v w).
Proof. exact @cli_help_on. Qed.
Print Assumptions C77_help_on.

Theorem C77_unknown :
  forall (C : Crypto) (T : Tty) path m l cmd args v w,
    line_words l (cmd :: args) -> cmd ∉ verbs -> command path m l v w = CRet false v w.
Proof. exact @cli_unknown. Qed.
Print Assumptions C77_unknown.

Theorem C77_clear :
  forall (C : Crypto) (T : Tty) path m l args v w,
    line_words l (bs "clear" :: args) -> command path m l v w = CRet true v (w_print w (map zb [27; 91; 72; 27; 91; 50; 74; 10])).
Proof. exact @cli_clear. Qed.
Print Assumptions C77_clear.

(** Two columns can run into one another: a listing does not tell what the labels are. *)
Definition xi_labels (ks : list bytes) : sstore := SStore 1 5 (Some (list_to_map (map (fun k => (k, Some (SRec k 3 (Some (bs "s")) None))) ks))) (Some (bs "pw")).
Theorem C77_list_tells_refuted :
  exists (T : Tty) s1 s2 t, (forall out, tty_width out = None) /\
    (forall C : Crypto, forall path m w, command path m (bs "list") (Sess s1 false) w = CRet true (Sess s1 false) (w_print w t) /\
      command path m (bs "list") (Sess s2 false) w = CRet true (Sess s2 false) (w_print w t)) /\
    exists k, is_Some (slot s1 k) /\ slot s2 k = None.
Proof.
  set (T := {| tty_width := fun _ => None; tty_time := fun _ => []; tty_meta := fun _ md => map_to_list md |} : Tty).
  exists T, (xi_labels [replicate 33 x61; bs "b"]), (xi_labels [replicate 32 x61; bs "ab"]). eexists. split; [reflexivity|].
  assert (line_words (bs "list") [bs "list"]) as W by (apply fields_iff; vm_compute; reflexivity).
  split; [|exists (bs "b"); split; [eexists|]; vm_compute; reflexivity].
  assert (forall out, list_text (H:=T) (xi_labels [replicate 33 x61; bs "b"]) [] out = list_text (H:=T) (xi_labels [replicate 32 x61; bs "ab"]) [] []) as E1 by (intros out; vm_compute; reflexivity).
  assert (forall out, list_text (H:=T) (xi_labels [replicate 32 x61; bs "ab"]) [] out = list_text (H:=T) (xi_labels [replicate 32 x61; bs "ab"]) [] []) as E2 by (intros out; vm_compute; reflexivity).
  intros C path m w. rewrite !(command_at _ _ _ _ _ _ _ W). repeat (rewrite decide_False by discriminate). rewrite !decide_True by reflexivity.
  cbn [vStore]. rewrite (E1 (wOut w)), (E2 (wOut w)). split; reflexivity.
Qed.
Print Assumptions C77_list_tells_refuted.

(** C56, metadata. *)
Theorem C56_wmeta :
  forall (C : Crypto) (T : Tty) path m l label v w r,
    line_words l [bs "wmeta"; label] -> slot (vStore v) label = Some (Some r) ->
    exists ls i' md' v' w', dictates ls (default ∅ (rMeta r)) md' /\ same_but label (vStore v) (vStore v') /\
      sVersion (vStore v') = sVersion (vStore v) /\ sPass (vStore v') = sPass (vStore v) /\
      (dialogue (wIn w) ls i' /\ command path m l v w = CRet true v' w' /\ vDirty v' = true /\ sTime (vStore v') = nth 0 (wClk w) 0 /\
         slot (vStore v') label = Some (Some (SRec (rLabel r) (nth 0 (wClk w) 0) (rSecret r) (Some md'))) /\
         w' = World (wFs w) i' (wPw w) (drop 1 (wClk w)) (wRng w) (wFate w) (wOut w) \/
       breaks_off (wIn w) ls i' /\ command path m l v w = CRet false v' w' /\ vDirty v' = vDirty v /\ sTime (vStore v') = sTime (vStore v) /\
         slot (vStore v') label = Some (Some (SRec (rLabel r) (rTime r) (rSecret r) (Some md'))) /\ w' = set_in w i').
Proof. exact @cli_wmeta. Qed.
Print Assumptions C56_wmeta.

Theorem C56_wmeta_refused :
  forall (C : Crypto) (T : Tty) path m l args v w,
    line_words l (bs "wmeta" :: args) ->
    (length args <> 1%nat -> command path m l v w = CRet false v w) /\
    (forall label, args = [label] -> slot (vStore v) label = None -> command path m l v w = CRet false v w) /\
    (forall label, args = [label] -> slot (vStore v) label = Some None -> command path m l v w = CPanic v w).
Proof. exact @cli_wmeta_fails. Qed.
Print Assumptions C56_wmeta_refused.

(** C58, the end of the input. *)
Theorem C58_eof_ends :
  forall (C : Crypto) (T : Tty) (L : CryptoLaws) path m v0 w0 c,
    reaches path m (cli_start v0 w0) c -> tRead c = RDone -> tLoop c = LSelect ->
    exists c', cli_step path m c c' /\ tLoop c' = LReturned /\ tPrClosed c' = false /\ tSess c' = tSess c /\ tWorld c' = tWorld c /\ tDone c' = tDone c.
Proof. exact @eof_ends. Qed.
Print Assumptions C58_eof_ends.

Theorem C58_eof_closes :
  forall (C : Crypto) (T : Tty) (L : CryptoLaws) path m v0 w0 c i,
    reaches path m (cli_start v0 w0) c -> tRead c = RRead -> tLoop c = LSelect -> read_line (wIn (tWorld c)) = (None, i) ->
    exists c1 c2, cli_step path m c c1 /\ tRead c1 = RDone /\ tInClosed c1 = true /\ cli_step path m c1 c2 /\ tLoop c2 = LReturned /\ tPrClosed c2 = false /\
      tSess c2 = tSess c /\ wFs (tWorld c2) = wFs (tWorld c) /\ tDone c2 = tDone c.
Proof. exact @eof_closes. Qed.
Print Assumptions C58_eof_closes.

(** What sessions print. *)
Global Instance xi_tty_laws : TtyLaws.
Proof. split. reflexivity. Qed.
Definition xi_out (ls : list bytes) : bytes := match xi_session ls [bs "pw"; bs "new"] [] with CRet _ _ w | CPanic _ w | CExit _ w => wOut w end.
Example C77_nonvacuous :
  xi_out [bs "show mail"; bs "showhex mail web"; bs "quit"] = bs "s1" ++ [nl] ++ bs "mail: 7331" ++ [nl] ++ bs "[!] web not found." ++ [nl] /\
  xi_out [bs "store web"; bs "list"; bs "quit"] = bs "Key store: 2 keys" ++ [nl; x09] ++ bs "mail   web" ++ [nl] /\
  xi_out [bs "store web"; bs "list eb x"; bs "quit"] = bs "Key store: 1 keys" ++ [nl; x09] ++ bs "web    " ++ [nl] /\
  xi_out [bs "rmeta mail"; bs "quit"] =
    bs "Record: mail" ++ [nl; x09] ++ bs "Last modification: now (timestamp 3)" ++ [nl; x09] ++ bs "Metadata:" ++ [nl; x09; x09] ++ bs "user: kyle" ++ [nl] /\
  xi_out [bs "lst"; bs "help lst"; bs "show"; bs "quit"] = [] /\
  xi_out [bs "help clear"; bs "quit"] =
    bs "clear: attempt to clear the display" ++ [nl; x09] ++ bs "Arguments: none" ++ [nl; nl; nl; x09] ++
    bs "Clear the screen using an ANSI escape code. This may not work" ++ [nl; x09] ++ bs "in all terminals." ++ [nl; nl; nl].
Proof. vm_compute. split_and!; reflexivity. Qed.
Example C56_wmeta_nonvacuous :
  xi_view (bs "pw") (xi_session [bs "wmeta mail"; bs " a = b = c"; bs "nonsense"; bs "user=me"; []; bs "quit"] [bs "pw"] []) =
    Some [(bs "mail", (bs "mail", 7, Some (bs "s1"), [(bs "a", Some (bs "b = c")); (bs "user", Some (bs "me"))]))].
Proof. vm_compute. reflexivity. Qed.
Example C58_eof_nonvacuous : exists c, reaches (C:=toy) (bs "f") 1 (cli_start (Sess xi_store true) (xi_world [] [] [])) c /\ tRead c = RDone /\ tLoop c = LSelect.
Proof.
  eexists (Cli RDone LSelect true false _ _ _). split; [|split; reflexivity]. eapply rc_step; [apply rc_refl|]. apply st_eof; [discriminate|vm_compute; reflexivity].
Qed.

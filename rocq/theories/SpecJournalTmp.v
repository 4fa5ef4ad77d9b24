(** What should become of the temporary file of journal. *)
From Verif Require Export JournalTmp SpecJournal.
Local Open Scope Z_scope.

(** The editor touches no other file. *)
Definition tidy (E : tmpenv) (p : bytes) : Prop := forall args f q, q <> p -> snd (eRun E args f) !! q = f !! q.
(** It leaves the file under its name. *)
Definition leaves (E : tmpenv) (p : bytes) : Prop := forall args f, is_Some (f !! p) -> is_Some (snd (eRun E args f) !! p).
(** It changes nothing and reports success. *)
Definition looks (E : tmpenv) : Prop := forall args f, eRun E args f = (true, f).
(** Nothing fails but perhaps the write. *)
Definition willing (E : tmpenv) : Prop := eRead E = true /\ eRm1 E = true.
(** A temporary file is made under a new name, the editor keeps to it, and it can be
    removed. *)
Definition clean (E : tmpenv) (f : fs) : Prop := exists p, eName E = Some p /\ f !! p = None /\ tidy E p /\ leaves E p /\ eRm1 E = true.
(** What is given to the editor of a text that is written with this fate. *)
Definition arrives (x : wfate) (content : bytes) : bytes := match x with WOk => content | WFailOpen => [] | WPartial n => take n content end.
(** The configuration whose editor is this one, used on these files. *)
Definition edits_with (E : tmpenv) (f : fs) (c : jcfg) : jcfg := JCfg (jArgs c) (fun d => fst (fst (session E d f))) (jFmt c) (jPerm c).
(** Words with single blanks between them. *)
Fixpoint unwords (ws : list bytes) : bytes := match ws with [] => [] | w :: ws => match ws with [] => w | _ => w ++ [x20] ++ unwords ws end end.

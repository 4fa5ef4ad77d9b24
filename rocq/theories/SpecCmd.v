(** Specification vocabulary for the commands. *)
From Verif Require Export SpecStore SpecReadLine Cmd.
Local Open Scope Z_scope.

(** A path that names a file (neither empty nor standard input or output). *)
Definition plain_path (p : bytes) : Prop := p <> [] /\ p <> bs "-".
(** The world in which a run ends, however it ends. *)
Definition ends {A} (r : res A) (w : world) : Prop := (exists a, r = Done a w) \/ r = Fail w \/ r = Crash w.
(** Only the file at [path] may differ. *)
Definition only_changes (path : bytes) (f f' : fs) : Prop := forall q, q <> path -> f' !! q = f !! q.
(** The disk accepts every write; clock readings are 64-bit numbers. *)
Definition disk_ok (w : world) : Prop := Forall (fun x => x = WOk) (wFate w).
Definition good_clock (w : world) : Prop := Forall int64 (wClk w).

(** What is stored under a label, nil records included. *)
Definition slot (s : sstore) (k : bytes) : option (option srec) :=
  match sRecs s with Some m => m !! k | None => None end.
Definition same_but (label : bytes) (s s' : sstore) : Prop := forall k, k <> label -> slot s' k = slot s k.

(** Metadata lines: [key = value], split at the first "=". *)
Definition meta_line (line k v : bytes) : Prop :=
  exists a b, line = a ++ [x3d] ++ b /\ x3d ∉ a /\ trimmed a k /\ trimmed b v.
Inductive dictates : list bytes -> gmap bytes (option bytes) -> gmap bytes (option bytes) -> Prop :=
  | dc_nil md : dictates [] md md
  | dc_pair line k v ls md md' : meta_line line k v -> dictates ls (<[k := Some v]> md) md' -> dictates (line :: ls) md md'
  | dc_skip line ls md md' : x3d ∉ line -> dictates ls md md' -> dictates (line :: ls) md md'.
(** A dialogue: lines that are not empty, closed by an empty one. *)
Definition dialogue (i : stdin) (ls : list bytes) (i' : stdin) : Prop :=
  Forall (fun l => l <> []) ls /\ hears i (ls ++ [[]]) i'.

Section WithCrypto.
Context `{C : Crypto}.
(** The file opens under the passphrase and holds [s]. *)
Definition opens (f : fs) (path : bytes) (m : Z) (pass : bytes) (s : sstore) : Prop :=
  exists d, f !! path = Some d /\ unmarshal_store d pass m = Ret (Some s).
(** The file holds [s], under its passphrase. *)
Definition saved (f : fs) (path : bytes) (m : Z) (s : sstore) : Prop :=
  exists pass s2, sPass s = Some pass /\ opens f path m pass s2 /\ reloaded s s2 /\ (text_store s -> s2 = s).
End WithCrypto.

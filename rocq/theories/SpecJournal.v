(** What the journal command should do. *)
From Verif Require Export SpecCli CmdJournal.
Local Open Scope Z_scope.

(** [f] only reorders. *)
Definition permutes (f : list (bytes * option srec) -> list (bytes * option srec)) : Prop := forall l, f l ≡ₚ l.
(** The entries of a store without nil records. *)
Definition entries (s : sstore) (es : list (bytes * srec)) : Prop :=
  NoDup es.*1 /\ forall k o, slot s k = Some o <-> exists r, o = Some r /\ (k, r) ∈ es.
(** A listing: newest first, one line for each entry, and each line with the title
    of an entry of that time, the same for all entries of that time. *)
Definition lists (es : list (bytes * srec)) (ls : list (Z * bytes)) : Prop :=
  Sorted (fun a b => b <= a) ls.*1 /\ ls.*1 ≡ₚ map (fun e => rTime (snd e)) es /\
  (forall t k, (t, k) ∈ ls -> exists r, (k, r) ∈ es /\ rTime r = t) /\
  (forall t k k', (t, k) ∈ ls -> (t, k') ∈ ls -> k = k').
Definition listing (fmt : Z -> bytes) (ls : list (Z * bytes)) : bytes :=
  bs "Entries:" ++ [x0a] ++ concat (map (fun l => [x09] ++ fmt (fst l) ++ [x09; x09] ++ snd l ++ [x0a]) ls).

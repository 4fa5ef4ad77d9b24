(** Model of common/util/util.go: random source, wiping, files. No proofs here.
    [ReadLine] is in ReadLine.v. *)
From Verif Require Export Bytes.
Local Open Scope Z_scope.

(** The random source [prng], common/util/util.go:36, as the bytes it will
    deliver; [None] marks a point where a Read fails (once); the end of the list
    is a source that fails from then on. *)
Definition rng := list (option byte).

(** [io.ReadFull(prng, p)] with [len p = n]: all [n] bytes or an error; the
    bytes read before an error are lost. *)
Fixpoint read_full (n : nat) (g : rng) : option bytes * rng :=
  match n with
  | O => (Some [], g)
  | S n' =>
      match g with
      | [] => (None, [])
      | None :: g' => (None, g')
      | Some b :: g' =>
          match read_full n' g' with
          | (Some l, g'') => (Some (b :: l), g'')
          | (None, g'') => (None, g'')
          end
      end
  end.

(** [RandBytes], common/util/util.go:40-47; [None] is nil. A negative size makes
    [make] panic. *)
Definition rand_bytes (size : Z) (g : rng) : outcome (option bytes * rng) :=
  if decide (size < 0) then Panic else Ret (read_full (Z.to_nat size) g).

(** [RandBytes] for the constant sizes used by the callers. *)
Definition rand (n : nat) (g : rng) : option bytes * rng := read_full n g.

(** [NonceSize], common/util/util.go:79. *)
Definition NonceSize : nat := 24.

(** [NewNonce], common/util/util.go:84-92. *)
Definition new_nonce (g : rng) : option bytes * rng :=
  match rand NonceSize g with
  | (None, g') => (None, g')
  | (Some p, g') => (Some (copy_into NonceSize p), g')
  end.

(** Go's [a ^ b] on bytes. *)
Definition bxor (a b : byte) : byte := zb (Z.lxor (bz a) (bz b)).

(** [Zero], common/util/util.go:72-76: the new contents of the slice. *)
Definition zero (b : bytes) : bytes := map (fun x => bxor x x) b.

(** A file system: regular files by path. Directories and permissions are not
    represented. *)
Notation fs := (gmap bytes bytes).

(** [ioutil.ReadFile]; [None] is an error. Simplification: an existing file can
    always be read. *)
Definition read_file (f : fs) (path : bytes) : option bytes := f !! path.

(** What the operating system does with an [ioutil.WriteFile]: succeed; fail in
    open, leaving the file alone; or fail after the truncation with [n] bytes
    written. *)
Inductive wfate := WOk | WFailOpen | WPartial (n : nat).

(** [ioutil.WriteFile]: O_WRONLY|O_CREATE|O_TRUNC, then write, then close. The
    boolean tells whether a nil error is returned. *)
Definition write_file (w : wfate) (f : fs) (path data : bytes) : bool * fs :=
  match w with
  | WOk => (true, <[path := data]> f)
  | WFailOpen => (false, f)
  | WPartial n => (false, <[path := take n data]> f)
  end.

(** The successive contents of the disk during [ioutil.WriteFile], one byte at a
    time: a crash may leave any of them. *)
Definition write_states (f : fs) (path data : bytes) : list fs :=
  f :: map (fun n => <[path := take n data]> f) (seq 0 (S (length data))).

(** [Exists], common/util/util.go:97-105: (exists, no error). Simplification:
    stat never fails for another reason than absence. *)
Definition exists_ (f : fs) (path : bytes) : bool * bool :=
  match f !! path with Some _ => (true, true) | None => (false, true) end.


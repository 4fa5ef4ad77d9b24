(** Bytes, Go integer conversions, and the outcome type shared by every model.

    These definitions model the Go language and its standard library rather than
    a particular file of /repo; each one says which construct it stands for. *)
From stdpp Require Export prelude list gmap strings.
From Coq Require Export ZArith Lia.
From Coq Require Strings.Byte Strings.String.
Export Coq.Init.Byte(byte(..)).

(** Go's [byte]/[uint8]: 256 constructors, so the range is a matter of typing. *)
Global Instance byte_eq_dec : EqDecision byte := Byte.byte_eq_dec.
Global Instance byte_inhabited : Inhabited byte := populate x00.

(** Needed so that byte strings can index [gmap]s (Go [map[string]...]). *)
Global Program Instance byte_countable : Countable byte :=
  inj_countable Strings.Byte.to_N Strings.Byte.of_N _.
Next Obligation. intros b. apply Strings.Byte.of_to_N. Qed.

(** Go's [[]byte] contents and [string] (a Go string is an arbitrary byte
    string). Aliasing and capacity are modelled separately where they matter. *)
Notation bytes := (list byte).

(** A Go string literal. *)
Definition bs (s : String.string) : bytes := String.list_byte_of_string s.
Arguments bs s%string.

(** [int(b)] for a byte [b]. *)
Definition bz (b : byte) : Z := Z.of_N (Strings.Byte.to_N b).
(** [byte(z)]: conversion of an integer keeps the low 8 bits. *)
Definition zb (z : Z) : byte :=
  match Strings.Byte.of_N (Z.to_N (z mod 256)) with Some b => b | None => x00 end.

(** Go length as an integer. *)
Definition zlen {A} (l : list A) : Z := Z.of_nat (length l).

(** [binary.BigEndian.PutUintN]: [n] bytes, most significant first. *)
Fixpoint be (n : nat) (z : Z) : bytes :=
  match n with
  | O => []
  | S n' => zb (z / 256 ^ Z.of_nat n') :: be n' z
  end.
(** [binary.BigEndian.UintN]. *)
Fixpoint unbe_acc (acc : Z) (l : bytes) : Z :=
  match l with [] => acc | b :: l' => unbe_acc (acc * 256 + bz b) l' end.
Definition unbe (l : bytes) : Z := unbe_acc 0 l.

(** Go integer conversions: to an unsigned / two's complement signed type of
    [n] bits. *)
Definition to_u (n : Z) (z : Z) : Z := z mod 2 ^ n.
Definition to_i (n : Z) (z : Z) : Z :=
  let m := (z mod 2 ^ n)%Z in if decide (m < 2 ^ (n - 1))%Z then m else (m - 2 ^ n)%Z.

(** Result of a call that may panic. *)
Inductive outcome (A : Type) : Type := Ret (a : A) | Panic.
Arguments Ret {A} a.
Arguments Panic {A}.
Definition obind {A B} (o : outcome A) (f : A -> outcome B) : outcome B :=
  match o with Ret a => f a | Panic => Panic end.
Notation "'let!' x := e 'in' f" := (obind e (fun x => f))
  (at level 200, x pattern, e at level 100, f at level 200, right associativity).

(** [copy(dst, src)] into an array of [n] zero bytes: truncates or leaves the
    tail zero. *)
Definition zeros (n : nat) : bytes := replicate n x00.
Definition copy_into (n : nat) (src : bytes) : bytes :=
  take n src ++ zeros (n - length src).

(** Model of encoding/asn1 (Go 1.23) for the types the code uses: int64, byte
    slices, strings, and structs and slices of them. No proofs here. *)
From Verif Require Export Bytes.
Local Open Scope Z_scope.

Definition TagInteger : byte := x02.
Definition TagOctetString : byte := x04.
Definition TagSequence : byte := x30.

(** *** Marshalling *)
(** [lengthLength]; at most 8 bytes. *)
Fixpoint length_length (f : nat) (i : Z) : nat :=
  match f with
  | O => 1%nat
  | S f => if decide (255 < i) then S (length_length f (i / 256)) else 1%nat
  end.
(** The length part of [appendTagAndLength]. *)
Definition der_length (n : Z) : bytes :=
  if decide (128 <= n) then let l := length_length 7 n in zb (128 + Z.of_nat l) :: be l n else [zb n].
Definition der_element (tag : byte) (body : bytes) : bytes := tag :: der_length (zlen body) ++ body.
(** [int64Encoder]: as many bytes as the value needs. *)
Fixpoint int_length (f : nat) (i : Z) : nat :=
  match f with
  | O => 1%nat
  | S f => if decide (127 < i \/ i < -128) then S (int_length f (i / 256)) else 1%nat
  end.
Definition der_int (i : Z) : bytes := der_element TagInteger (be (int_length 7 i) i).
Definition der_octets (b : bytes) : bytes := der_element TagOctetString b.

(** *** Parsing *)
(** The loop over the length bytes in [parseTagAndLength]. *)
Fixpoint length_bytes (n : nat) (acc : Z) (s : bytes) : option (Z * bytes) :=
  match n with
  | O => Some (acc, s)
  | S n =>
      match s with
      | [] => None
      | b :: s =>
          if decide (2 ^ 23 <= acc) then None else
          let acc := acc * 256 + bz b in
          if decide (acc = 0) then None else length_bytes n acc s
      end
  end.
Definition parse_length (s : bytes) : option (Z * bytes) :=
  match s with
  | [] => None
  | b :: s =>
      if decide (bz b < 128) then Some (bz b, s) else
      let n := Z.to_nat (bz b - 128) in
      if decide (n = 0%nat) then None else
      match length_bytes n 0 s with
      | None => None
      | Some (l, s) => if decide (l < 128) then None else Some (l, s)
      end
  end.
(** [parseField] up to the contents: tag, length, contents, rest. All tags
    expected here are single universal bytes, so a multi-byte tag never matches. *)
Definition der_field (tag : byte) (s : bytes) : option (bytes * bytes) :=
  match s with
  | [] => None
  | b :: s =>
      if decide (b <> tag) then None else
      match parse_length s with
      | None => None
      | Some (n, s) => if decide (zlen s < n) then None else Some (take (Z.to_nat n) s, drop (Z.to_nat n) s)
      end
  end.
(** [checkInteger]: is the first byte superfluous? *)
Definition nonminimal (x : byte) (r : bytes) : bool :=
  match r with
  | [] => false
  | y :: _ => bool_decide (bz x = 0 /\ bz y < 128) || bool_decide (bz x = 255 /\ 128 <= bz y)
  end.
(** [parseInt64]. *)
Definition der_int64 (b : bytes) : option Z :=
  match b with
  | [] => None
  | x :: r =>
      if nonminimal x r then None
      else if decide (8 < zlen b) then None
      else Some (to_i (8 * zlen b) (unbe b))
  end.

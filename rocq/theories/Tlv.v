(** Model of common/tlv/tlv.go. No proofs here. *)
From Verif Require Export Bytes.
Local Open Scope Z_scope.

(** The fixed-width integer types Encode and Decode switch on
    (common/tlv/tlv.go:85-144, 197-246). *)
Inductive ity := I8 | U8 | I16 | U16 | I32 | U32 | I64 | U64.
Global Instance ity_eq_dec : EqDecision ity.
Proof. solve_decision. Defined.

(** Tags, common/tlv/tlv.go:17-44 ([iota + 1]). *)
Definition TagUint8 : byte := x01.
Definition TagInt8 : byte := x02.
Definition TagBytes : byte := x03.
Definition TagInt16 : byte := x04.
Definition TagUint16 : byte := x05.
Definition TagInt32 : byte := x06.
Definition TagUint32 : byte := x07.
Definition TagInt64 : byte := x08.
Definition TagUint64 : byte := x09.

(** A Go value handed to Encode as an [interface{}]. [VInt t z] is a value of
    integer type [t]; the type bounds [z] (see [in_range]). [VOther] is a value
    of any type the switch does not list (common/tlv/tlv.go:141). *)
Inductive value := VInt (t : ity) (z : Z) | VBytes (b : bytes) | VOther.
Global Instance value_eq_dec : EqDecision value.
Proof. solve_decision. Defined.

(** Range of each Go integer type. *)
Definition in_range (t : ity) (z : Z) : Prop :=
  match t with
  | I8 => - 2 ^ 7 <= z < 2 ^ 7 | U8 => 0 <= z < 2 ^ 8
  | I16 => - 2 ^ 15 <= z < 2 ^ 15 | U16 => 0 <= z < 2 ^ 16
  | I32 => - 2 ^ 31 <= z < 2 ^ 31 | U32 => 0 <= z < 2 ^ 32
  | I64 => - 2 ^ 63 <= z < 2 ^ 63 | U64 => 0 <= z < 2 ^ 64
  end.

(** [Encoder.buf], common/tlv/tlv.go:47-49; the zero Encoder has no data.
    Capacity is irrelevant here: the encoder only appends. *)
Definition encoder := bytes.

(** [Encoder.Encode], common/tlv/tlv.go:82-146. [None] is the error at line 142;
    the encoder is then unchanged because no case appended to it. *)
Definition tlv_encode (enc : encoder) (v : value) : option encoder :=
  match v with
  | VInt I8 z => Some (((enc ++ [TagInt8]) ++ [x00; x00; x00; x01]) ++ [zb z])
  | VInt U8 z => Some (((enc ++ [TagUint8]) ++ [x00; x00; x00; x01]) ++ [zb z])
  | VBytes b => Some (((enc ++ [TagBytes]) ++ be 4 (to_u 32 (zlen b))) ++ b)
  | VInt I16 z => Some (((enc ++ [TagInt16]) ++ [x00; x00; x00; x02]) ++ be 2 (to_u 16 z))
  | VInt U16 z => Some (((enc ++ [TagUint16]) ++ [x00; x00; x00; x02]) ++ be 2 z)
  | VInt I32 z => Some (((enc ++ [TagInt32]) ++ [x00; x00; x00; x04]) ++ be 4 (to_u 32 z))
  | VInt U32 z => Some (((enc ++ [TagUint32]) ++ [x00; x00; x00; x04]) ++ be 4 z)
  | VInt I64 z => Some (((enc ++ [TagInt64]) ++ [x00; x00; x00; x08]) ++ be 8 (to_u 64 z))
  | VInt U64 z => Some (((enc ++ [TagUint64]) ++ [x00; x00; x00; x08]) ++ be 8 (to_u 64 z))
  | VOther => None
  end.

(** A caller that ignores Encode's error, as every caller in /repo does
    (e.g. common/public/crypto.go:72-76). *)
Definition encode_ (enc : encoder) (v : value) : encoder :=
  match tlv_encode enc v with Some e => e | None => enc end.

(** [Encoder.Length] and [Encoder.Zero], common/tlv/tlv.go:57-69. *)
Definition enc_length (enc : encoder) : Z := zlen enc.
Definition enc_zero (enc : encoder) : encoder := [].

(** A Go byte slice: the visible bytes and the bytes between len and cap,
    which [s[:n]] may expose. *)
Record slice := Slice { vis : bytes; hid : bytes }.

(** [s[n:]] for 0 <= n <= len(s). *)
Definition slice_from (n : nat) (s : slice) : slice := Slice (drop n (vis s)) (hid s).
(** [s[:n]]: allowed up to the capacity, otherwise a panic. *)
Definition slice_to (n : nat) (s : slice) : outcome bytes :=
  if decide (n <= length (vis s ++ hid s))%nat then Ret (take n (vis s ++ hid s)) else Panic.
(** [s[0]]: needs a visible byte. *)
Definition slice_at0 (s : slice) : outcome byte :=
  match vis s with b :: _ => Ret b | [] => Panic end.

(** What Decode is given: a pointer to an integer or byte slice, the nil
    interface (line 191), or something else (line 244). Simplification: a typed
    nil pointer, which would panic on assignment, is not represented. *)
Inductive target := TInt (t : ity) | TBytes | TNil | TOther.
Global Instance target_eq_dec : EqDecision target.
Proof. solve_decision. Defined.

(** Errors of Decode, common/tlv/tlv.go:178, 184, 192, 200-241, 245. *)
Inductive derr := EInvalidData | EInvalidLength | ENilPointer | EInvalidTag (t : byte) | EUnknown (t : byte).

(** Result of Decode: an error, or success with the value stored through the
    pointer ([None]: nothing stored) and the decoder's remaining slice. *)
Inductive dres := DErr (e : derr) | DOk (v : option value) (rest : slice).

(** Tag each integer case of Decode insists on, common/tlv/tlv.go:198-243. *)
Definition itag (t : ity) : byte :=
  match t with
  | I8 => TagInt8 | U8 => TagUint8 | I16 => TagInt16 | U16 => TagUint16
  | I32 => TagInt32 | U32 => TagUint32 | I64 => TagInt64 | U64 => TagUint64
  end.

(** The right-hand sides of the integer assignments, common/tlv/tlv.go:202-243. *)
Definition read_int (t : ity) (buf : slice) : outcome Z :=
  match t with
  | I8 => let! b := slice_at0 buf in Ret (to_i 8 (bz b))
  | U8 => let! b := slice_at0 buf in Ret (bz b)
  | I16 => let! p := slice_to 2 buf in Ret (to_i 16 (unbe p))
  | U16 => let! p := slice_to 2 buf in Ret (unbe p)
  | I32 => let! p := slice_to 4 buf in Ret (to_i 32 (unbe p))
  | U32 => let! p := slice_to 4 buf in Ret (unbe p)
  | I64 => let! p := slice_to 8 buf in Ret (to_i 64 (unbe p))
  | U64 => let! p := slice_to 8 buf in Ret (unbe p)
  end.

(** [buf[int(l):]] (line 248) for an int32 [l]: panics if negative or beyond len. *)
Definition advance (l : Z) (buf : slice) : outcome slice :=
  if decide (0 <= l <= zlen (vis buf)) then Ret (slice_from (Z.to_nat l) buf) else Panic.

(** [Decoder.Decode], common/tlv/tlv.go:171-250, on the decoder's slice. *)
Definition tlv_decode (buf : slice) (v : target) : outcome dres :=
  if decide (length (vis buf) < 5)%nat then Ret (DErr EInvalidData) else
  let t := match vis buf with b :: _ => b | [] => x00 end in
  let l := to_i 32 (unbe (take 4 (drop 1 (vis buf)))) in
  if decide (l > to_i 32 (zlen (drop 5 (vis buf)))) then Ret (DErr EInvalidLength) else
  if decide (t = TagBytes /\ l = 0) then Ret (DOk None buf) else
  let buf := slice_from 5 buf in
  match v with
  | TNil => Ret (DErr ENilPointer)
  | TInt it =>
      if decide (t = itag it) then
        let! z := read_int it buf in
        let! rest := advance l buf in
        Ret (DOk (Some (VInt it z)) rest)
      else Ret (DErr (EInvalidTag t))
  | TBytes =>
      if decide (t = TagBytes) then
        (* make([]byte, int(l)) panics for a negative length *)
        if decide (l < 0) then Panic else
        let data := copy_into (Z.to_nat l) (vis buf) in
        let! rest := advance l buf in
        Ret (DOk (Some (VBytes data)) rest)
      else Ret (DErr (EInvalidTag t))
  | TOther => Ret (DErr (EUnknown t))
  end.

(** [NewDecoder] (line 156) and [Decoder.Length] (line 254). *)
Definition new_decoder (s : slice) : slice := s.
Definition dec_length (s : slice) : Z := zlen (vis s).

(** [Decoder.Zero], common/tlv/tlv.go:161-168: the bytes of the caller's slice
    up to len become zero, the decoder holds nothing afterwards. Returns the
    caller's slice and the decoder. *)
Definition dec_zero (s : slice) : slice * slice :=
  (Slice (zeros (length (vis s))) (hid s), Slice [] []).

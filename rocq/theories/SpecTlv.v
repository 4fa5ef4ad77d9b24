(** Specification vocabulary for the TLV properties, independent of the helper
    functions in Tlv.v (only the types [value], [target], [ity] are shared). *)
From Verif Require Export Tlv.
Local Open Scope Z_scope.

(** The published wire format: tag number and payload width of each type. *)
Definition wire_tag (t : ity) : Z :=
  match t with U8 => 1 | I8 => 2 | I16 => 4 | U16 => 5 | I32 => 6 | U32 => 7 | I64 => 8 | U64 => 9 end.
Definition wire_tag_bytes : Z := 3.
Definition width (t : ity) : nat :=
  match t with I8 | U8 => 1 | I16 | U16 => 2 | I32 | U32 => 4 | I64 | U64 => 8 end%nat.

(** [payload] is the big-endian two's complement representation of [z] at type [t]. *)
Definition denotes (t : ity) (payload : bytes) (z : Z) : Prop :=
  length payload = width t /\ in_range t z /\ unbe payload = z mod 2 ^ (8 * Z.of_nat (width t)).

(** [r] is the wire record of [v]: tag byte, four byte big-endian payload
    length, payload. *)
Definition wire_record (v : value) (r : bytes) : Prop :=
  exists tag len payload, r = tag :: len ++ payload /\ length len = 4%nat
    /\ unbe len = zlen payload
    /\ match v with
       | VInt t z => bz tag = wire_tag t /\ denotes t payload z
       | VBytes b => bz tag = wire_tag_bytes /\ payload = b
       | VOther => False
       end.

(** Values Go can hand to Encode: integers in range of their type, byte slices
    below [bound] bytes. *)
Definition fits (bound : Z) (v : value) : Prop :=
  match v with
  | VInt t z => in_range t z
  | VBytes b => zlen b < bound
  | VOther => False
  end.
(** ... and not the empty byte slice. *)
Definition nonempty_value (v : value) : Prop := v <> VBytes [].

Definition target_of (v : value) : target :=
  match v with VInt t _ => TInt t | VBytes _ => TBytes | VOther => TOther end.

(** Successive Encode calls, stopping at the first error. *)
Fixpoint encode_seq (enc : encoder) (vs : list value) : option encoder :=
  match vs with
  | [] => Some enc
  | v :: vs' => match tlv_encode enc v with Some enc' => encode_seq enc' vs' | None => None end
  end.

(** Successive Decode calls into the given targets, stopping at the first error. *)
Inductive seqres := SErr (done : nat) (e : derr) | SOk (vs : list (option value)) (rest : slice).
Fixpoint decode_seq (s : slice) (ts : list target) : outcome seqres :=
  match ts with
  | [] => Ret (SOk [] s)
  | t :: ts' =>
      match tlv_decode s t with
      | Panic => Panic
      | Ret (DErr e) => Ret (SErr 0 e)
      | Ret (DOk v s') =>
          match decode_seq s' ts' with
          | Panic => Panic
          | Ret (SErr n e) => Ret (SErr (S n) e)
          | Ret (SOk vs r) => Ret (SOk (v :: vs) r)
          end
      end
  end.

(** Header of a buffer: tag, signed 32-bit length, and body. *)
Definition header (b : bytes) (tag : Z) (l : Z) (body : bytes) : Prop :=
  exists t len, b = t :: len ++ body /\ length len = 4%nat /\ bz t = tag
    /\ (unbe len < 2 ^ 31 -> l = unbe len) /\ (2 ^ 31 <= unbe len -> l = unbe len - 2 ^ 32).

(** Length of the body as Decode sees it after conversion to int32. *)
Definition seen_length (body : bytes) (n : Z) : Prop :=
  - 2 ^ 31 <= n < 2 ^ 31 /\ exists k, zlen body = n + k * 2 ^ 32.

(** The buffers on which Decode panics: [b] visible bytes, [h] bytes up to the
    capacity. *)
Definition panic_spec (b h : bytes) (tgt : target) : Prop :=
  exists tag l body n, header b tag l body /\ seen_length body n /\ l <= n
    /\ match tgt with
       | TInt t => tag = wire_tag t
           /\ (l < 0 \/ (length (match t with I8 | U8 => body | _ => body ++ h end) < width t)%nat)
       | TBytes => tag = wire_tag_bytes /\ l < 0
       | _ => False
       end.

(** The buffers from which Decode stores [v] and leaves [rest]. *)
Definition value_spec (b h : bytes) (tgt : target) (v : value) (rest : slice) : Prop :=
  exists tag l body n, header b tag l body /\ seen_length body n /\ 0 <= l <= n
    /\ rest = Slice (drop (Z.to_nat l) body) h
    /\ match tgt with
       | TInt t => tag = wire_tag t
           /\ exists z payload tail, v = VInt t z /\ denotes t payload z
              /\ match t with I8 | U8 => body | _ => body ++ h end = payload ++ tail
       | TBytes => tag = wire_tag_bytes /\ 0 < l
           /\ v = VBytes (take (Z.to_nat l) body)
       | _ => False
       end.

(** The buffers that start with an empty byte record (which Decode skips). *)
Definition empty_spec (b : bytes) : Prop :=
  exists body n, header b wire_tag_bytes 0 body /\ seen_length body n /\ 0 <= n.

(** Text encodings of the Go standard library used by the code: hexadecimal and
    decimal. No proofs here. *)
From Verif Require Export Bytes.
Local Open Scope Z_scope.

(** [hextable], encoding/hex: lower-case digits. *)
Definition hexdigit (n : Z) : byte := zb (if decide (n < 10) then 48 + n else 87 + n).
(** [hex.EncodeToString]. *)
Definition hex_encode (b : bytes) : bytes :=
  flat_map (fun x => [hexdigit (bz x / 16); hexdigit (bz x mod 16)]) b.
(** One digit of [hex.DecodeString]: both cases are accepted. *)
Definition unhexdigit (c : byte) : option Z :=
  let n := bz c in
  if decide (48 <= n <= 57) then Some (n - 48)
  else if decide (97 <= n <= 102) then Some (n - 87)
  else if decide (65 <= n <= 70) then Some (n - 55)
  else None.
(** [hex.DecodeString]; [None] is an error (bad digit or odd length). *)
Fixpoint hex_decode (s : bytes) : option bytes :=
  match s with
  | [] => Some []
  | [_] => None
  | a :: b :: s' =>
      match unhexdigit a, unhexdigit b, hex_decode s' with
      | Some x, Some y, Some r => Some (zb (16 * x + y) :: r)
      | _, _, _ => None
      end
  end.

(** Decimal digits of a non-negative integer, as [fmt] prints it. *)
Fixpoint show_fuel (fuel : nat) (z : Z) (acc : bytes) : bytes :=
  match fuel with
  | O => acc
  | S fuel' =>
      let acc := zb (48 + z mod 10) :: acc in
      if decide (z < 10) then acc else show_fuel fuel' (z / 10) acc
  end.
Definition show (z : Z) : bytes := show_fuel (S (Z.to_nat (Z.log2 z))) z [].
(** Zero padding to a minimum width ([%0Nd]). *)
Definition pad0 (width : nat) (s : bytes) : bytes := replicate (width - length s) x30 ++ s.

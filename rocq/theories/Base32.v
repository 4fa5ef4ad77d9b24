(** Model of encoding/base32 StdEncoding and of [sanitiseSecret] of cmd/otpc. No
    proofs here. *)
From Verif Require Export Text.
Local Open Scope Z_scope.

(** The decoding map of [base32.StdEncoding]: A-Z, 2-7. *)
Definition unb32 (c : byte) : option Z :=
  let n := bz c in
  if decide (65 <= n <= 90) then Some (n - 65)
  else if decide (50 <= n <= 55) then Some (n - 50 + 26)
  else None.

(** One round of the loop of [Encoding.decode] (encoding/base32/base32.go of Go
    1.23): up to eight values; is this the end? [j] counts the values read. *)
Fixpoint b32_quantum (j : nat) (buf : list Z) (src : bytes) : option (list Z * bytes * bool) :=
  if decide (j = 8%nat) then Some (buf, src, false) else
  match src with
  | [] => None
  | c :: src =>
      if decide (c = x3d /\ (2 <= j)%nat /\ (length src < 8)%nat) then
        if decide (length src + j < 7)%nat then None else
        if decide (Forall (eq x3d) (take (7 - j) src)) then
          if decide (j = 1 \/ j = 3 \/ j = 6)%nat then None else Some (buf, src, true)
        else None
      else match unb32 c with None => None | Some v => b32_quantum (S j) (buf ++ [v]) src end
  end.
(** Packing of the values read: [dbuf] is zeroed beyond them, and of the five bytes
    one, two, three, four or five are kept for 2, 4, 5, 7 or 8 values. *)
Definition b32_pack (buf : list Z) : bytes :=
  let d i := nth i buf 0 in
  take (5 * length buf / 8) [zb ((d 0 * 8 + d 1 / 4) mod 256); zb ((d 1 * 64 + d 2 * 2 + d 3 / 16) mod 256);
    zb ((d 3 * 16 + d 4 / 2) mod 256); zb ((d 4 * 128 + d 5 * 4 + d 6 / 8) mod 256); zb ((d 6 * 32 + d 7) mod 256)]%nat.
Fixpoint b32_loop (fuel : nat) (src : bytes) : option bytes :=
  match fuel, src with
  | _, [] => Some []
  | O, _ => None
  | S fuel, _ =>
      match b32_quantum 0 [] src with
      | None => None
      | Some (buf, _, true) => Some (b32_pack buf)
      | Some (buf, src, false) => match b32_loop fuel src with Some l => Some (b32_pack buf ++ l) | None => None end
      end
  end.
(** [StdEncoding.DecodeString]: '\r' and '\n' are dropped first. *)
Definition b32_decode (s : bytes) : option bytes :=
  let s := filter (fun c => c <> x0d /\ c <> x0a) s in b32_loop (length s) s.

(** [sanitiseSecret], cmd/otpc/otpc.go:137-147. [up] is [bytes.ToUpper]. *)
Definition sanitise (up : bytes -> bytes) (s : bytes) : bytes :=
  let s := filter (fun c => c <> x20) (up s) in
  if decide (zlen s mod 8 = 0) then s else s ++ repeat x3d (Z.to_nat (8 - zlen s mod 8)).

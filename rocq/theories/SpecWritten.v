(** The textual encodings as they are written: RFC 4648 with zero bits to fill up,
    RFC 7468's lines of 64 characters. Here every text is determined. *)
From Verif Require Export SpecCodec.
Local Open Scope Z_scope.

(** The bits of the digits are those of the bytes and, to fill up the last digit, zeros. *)
Definition exact_bits (w : Z) (vs : list Z) (b : bytes) : Prop :=
  exists k, 0 <= k < w /\ w * Z.of_nat (length vs) = 8 * zlen b + k /\ radix (2 ^ w) vs = unbe b * 2 ^ k.
Definition base64_written (s b : bytes) : Prop :=
  exists ds vs n, s = ds ++ replicate n x3d /\ Forall2 (digit b64_alphabet) ds vs /\
    (n <= 3)%nat /\ ((length ds + n) mod 4 = 0)%nat /\ exact_bits 6 vs b.
(** Lower case. *)
Definition hex_written (s b : bytes) : Prop :=
  exists vs, Forall2 (digit (bs "0123456789abcdef")) s vs /\ exact_bits 4 vs b.
(** A text in lines of 64 characters, the last with what is left. *)
Inductive wrapped : bytes -> bytes -> Prop :=
  | wrapped_none : wrapped [] []
  | wrapped_last l : (1 <= length l)%nat -> (length l <= 64)%nat -> wrapped l (l ++ [x0a])
  | wrapped_more l s t : length l = 64%nat -> s <> [] -> wrapped s t -> wrapped (l ++ s) (l ++ x0a :: t).
